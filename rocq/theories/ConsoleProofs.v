(** * Proofs about the console sink. *)
From Verif Require Import Base BaseFacts TelemetryModel TelemetrySpec TelemetryProofs BucketsModel BucketsSpec BucketsProofs BucketsProps ConsoleModel ConsoleSpec.
Open Scope string_scope. Open Scope list_scope. Open Scope nat_scope.

Section Console.
Context {Q : QLib} {S : Show}.
Variable hfun : list string -> N.

(** ** Rows *)
Lemma sapp_assoc (a b c : string) : (a ++ (b ++ c) = (a ++ b) ++ c)%string.
Proof. induction a; cbn; congruence. Qed.
Lemma sapp_nil (a : string) : (a ++ "" = a)%string.
Proof. induction a; cbn; congruence. Qed.
Lemma concat_cons (x : string) l : String.concat "" (x :: l) = (x ++ String.concat "" l)%string.
Proof. destruct l; cbn; [rewrite sapp_nil|]; reflexivity. Qed.
Lemma tags_fold l : forall r, fold_left (fun r kv => r ++ " " ++ fst kv ++ "=" ++ snd kv)%string l r =
  (r ++ String.concat "" (map (fun kv : string * string => " " ++ fst kv ++ "=" ++ snd kv)%string l))%string.
Proof.
  induction l as [|kv l IH]; intros r; [cbn; rewrite sapp_nil; reflexivity|]. cbn [fold_left map]. rewrite IH, concat_cons. rewrite !sapp_assoc. reflexivity.
Qed.
Lemma line_row_shows tags l : show_time (l_time l) <> None -> otm_ok (l_tags l) -> tm_ok tags ->
  exists row tg, line_row tags l = Some row /\ filled l tags tg /\ shows_line l tg row.
Proof.
  intros Ht Hl Hd. unfold line_row. destruct (show_time (l_time l)) as [t|] eqn:E; [|contradiction]. eexists _, (tag_iter (l_tags l) tags). split; [reflexivity|]. split.
  - split; [apply tag_iter_NoDup; assumption|]. intros. apply tag_iter_layered; assumption.
  - exists t. split; [exact E|]. rewrite tags_fold. rewrite <- !sapp_assoc. reflexivity.
Qed.
Lemma line_rows_shows tags ls : Forall (fun l => show_time (l_time l) <> None) ls -> Forall (fun l => otm_ok (l_tags l)) ls -> tm_ok tags ->
  exists rows, line_rows tags ls = (rows, true) /\ Forall2 (fun l row => exists tg, filled l tags tg /\ shows_line l tg row) ls rows.
Proof.
  induction ls as [|l ls IH]; intros Hp Ho Ht; [exists []; split; [reflexivity|constructor]|].
  inversion Hp; inversion Ho; subst. destruct IH as (rows & E & F); auto. destruct (line_row_shows tags l) as (row & tg & E1 & H1' & H2'); auto.
  exists (row :: rows). cbn. rewrite E1, E. split; [reflexivity|]. constructor; eauto.
Qed.
(** printing needs the times only *)
Lemma line_rows_ok tags ls : Forall (fun l => show_time (l_time l) <> None) ls -> exists rows, line_rows tags ls = (rows, true).
Proof.
  induction 1 as [|l ls Hl _ (rows & E)]; [exists []; reflexivity|]. cbn. unfold line_row. destruct (show_time (l_time l)); [|contradiction]. rewrite E. eauto.
Qed.

Lemma stats_same : stats = [("min", fzero); ("max", fone); ("50", fratio 1 2); ("90", fratio 9 10); ("99", fratio 99 100); ("999", fratio 999 1000)].
Proof. vm_compute. reflexivity. Qed.
Lemma report_fold ts : forall r, fold_left report_point ts r =
  mkReport (r_sums r ++ flat_map rows_of (filter (kind_is MSum) ts)) (r_sets r ++ flat_map rows_of (filter (kind_is MSet) ts))
    (r_summaries r ++ flat_map rows_of (filter (kind_is MSummarize) ts)) (r_histograms r ++ flat_map rows_of (filter (kind_is MHistogram) ts)).
Proof.
  induction ts as [|t ts IH]; intros r; cbn [fold_left]; [cbn; rewrite !app_nil_r; destruct r; reflexivity|].
  rewrite IH. unfold report_point, kind_is, t_kind, t_sum, t_set, t_query, t_bins, value_kind. destruct (t_value t) as [x|x|h|c s] eqn:E; cbn [value_sum value_set value_bins r_sums r_sets r_summaries r_histograms filter method_eqb flat_map];
    rewrite ?E; cbn [filter method_eqb flat_map]; f_equal; cbn [flat_map]; rewrite <- ?app_assoc; f_equal; try (unfold rows_of; rewrite E; reflexivity).
  unfold rows_of at 2. rewrite E. f_equal. rewrite stats_same. apply flat_map_ext. intros [n q]. cbn [fst snd value_query]. destruct (c_query c q) as [[? ?]|]; reflexivity.
Qed.
Lemma report_sections ts : report_rows (report_of ts) = sections_of ts.
Proof. unfold report_of. rewrite report_fold. reflexivity. Qed.

(** ** Runs *)
Lemma c_run_app os1 : forall c os2, c_run hfun c (os1 ++ os2) =
  match c_run hfun c os1 with
  | (o, Some c') => let '(o2, c2) := c_run hfun c' os2 in (o ++ o2, c2)
  | (o, None) => (o, None)
  end.
Proof.
  induction os1 as [|o os1 IH]; intros c os2; cbn [c_run app]; [destruct (c_run hfun c os2); reflexivity|].
  destruct (c_step hfun c o) as [rows [c'|]]; [|reflexivity]. rewrite IH. destruct (c_run hfun c' os1) as [o1 [c1|]]; [|reflexivity].
  destruct (c_run hfun c1 os2). rewrite app_assoc. reflexivity.
Qed.
Lemma b_run_app os1 : forall (b : buckets) os2, b_run hfun b (os1 ++ os2) = match b_run hfun b os1 with Some b' => b_run hfun b' os2 | None => None end.
Proof. induction os1 as [|o os1 IH]; intros b os2; cbn; [reflexivity|]. destruct (b_step hfun b o); [apply IH|reflexivity]. Qed.

Lemma quiet_run os : no_flush os -> forall c b, b_run hfun (cs_aggrs c) (bops os) = Some b ->
  c_run hfun c os = ([], Some (mkConsoleSink b (cs_buffer c ++ lines_of os) (cs_tags c))).
Proof.
  induction 1 as [|o os Ho Hos IH]; intros c b E; cbn in *; [injection E as <-; rewrite app_nil_r; destruct c; reflexivity|].
  destruct o as [t|l|]; [| |contradiction]; cbn in *.
  - unfold c_deliver. destruct (b_add hfun (cs_aggrs c) t) as [a|]; [|discriminate]. rewrite (IH (mkConsoleSink a (cs_buffer c) (cs_tags c)) b E). reflexivity.
  - rewrite (IH (c_deliver_line l c) b E). cbn. rewrite <- app_assoc. reflexivity.
Qed.
Lemma run_survives w tags os : w <> 0%Z -> printable os -> exists outs c, c_run hfun (c_init w tags) os = (outs, Some c) /\
  b_run hfun (b_new w) (bops os) = Some (cs_aggrs c) /\ cs_tags c = tags /\ incl (cs_buffer c) (lines_of os).
Proof.
  intros Hw. induction os as [|o os IH] using rev_ind; intros Hp.
  - exists [], (c_init w tags). repeat split. intros x [].
  - unfold printable, lines_of in Hp. rewrite flat_map_app in Hp. apply Forall_app in Hp as [Hp Hp']. destruct (IH Hp) as (outs & c & E & Eb & Et & Hi).
    destruct (C02_count_is_number_of_points Q hfun w (bops (os ++ [o])) Hw) as (b & Eb' & _).
    unfold bops in Eb'. rewrite flat_map_app in Eb'. fold (bops os) in Eb'. rewrite b_run_app, Eb in Eb'. cbn [flat_map] in Eb'. rewrite app_nil_r in Eb'.
    rewrite c_run_app, E. cbn [c_run]. unfold bops, lines_of. rewrite !flat_map_app. fold (bops os) (lines_of os). rewrite b_run_app, Eb. cbn [flat_map]. rewrite !app_nil_r.
    destruct o as [t|l|d1 d2 now]; cbn [c_step] in *.
    + cbn in Eb'. unfold c_deliver. destruct (b_add hfun (cs_aggrs c) t) as [a|] eqn:Ea; [|discriminate]. eexists _, _. split; [reflexivity|]. cbn. rewrite Ea. split; [reflexivity|]. split; [exact Et|]. rewrite app_nil_r. exact Hi.
    + eexists _, _. split; [reflexivity|]. cbn. split; [reflexivity|]. split; [exact Et|]. intros x Hx. apply in_app_iff in Hx as [Hx|Hx]; apply in_app_iff; auto.
    + unfold c_flush. destruct (line_rows_ok (cs_tags c) (cs_buffer c)) as (rows & ->).
      { rewrite Forall_forall in *. intros x Hx. apply Hp, Hi, Hx. }
      eexists _, _. split; [reflexivity|]. cbn. split; [reflexivity|]. split; [exact Et|]. intros x [].
Qed.

Lemma flushed_buffer w tags os outs c : flushed os -> c_run hfun (c_init w tags) os = (outs, Some c) -> cs_buffer c = [].
Proof.
  intros [->|(os0 & d1 & d2 & now & ->)] E; [injection E as _ <-; reflexivity|]. rewrite c_run_app in E. destruct (c_run hfun (c_init w tags) os0) as [o [c0|]]; [|discriminate].
  cbn [c_run c_step] in E. unfold c_flush in E. destruct (line_rows (cs_tags c0) (cs_buffer c0)) as [ls [|]]; [|discriminate]. injection E as _ <-. reflexivity.
Qed.
Lemma line_rows_true tags ls rows : line_rows tags ls = (rows, true) -> Forall (fun l => show_time (l_time l) <> None) ls.
Proof.
  revert rows. induction ls as [|l ls IH]; intros rows E; [constructor|]. cbn in E. unfold line_row in E. destruct (show_time (l_time l)) eqn:Et; [|discriminate].
  destruct (line_rows tags ls) as [rs ok]. injection E as _ ->. constructor; [congruence|]. eapply IH. reflexivity.
Qed.
Lemma run_buckets os : forall c outs c', c_run hfun c os = (outs, Some c') -> b_run hfun (cs_aggrs c) (bops os) = Some (cs_aggrs c') /\ cs_tags c' = cs_tags c.
Proof.
  induction os as [|o os IH]; intros c outs c' E; cbn in E; [injection E as _ <-; split; reflexivity|]. unfold bops. cbn [flat_map]. fold (bops os).
  destruct o as [t|l|d1 d2 now]; cbn in *.
  - unfold c_deliver in E. destruct (b_add hfun (cs_aggrs c) t) as [a|]; [|discriminate]. destruct (c_run hfun _ os) as [o1 c1] eqn:E1. injection E as _ ->. apply IH in E1. exact E1.
  - destruct (c_run hfun _ os) as [o1 c1] eqn:E1. injection E as _ ->. apply IH in E1. exact E1.
  - destruct (c_flush d1 d2 now c) as [rows [c1|]] eqn:E1; [|discriminate]. destruct (c_run hfun c1 os) as [o1 c2] eqn:E2. injection E as _ ->. apply IH in E2.
    unfold c_flush in E1. destruct (line_rows (cs_tags c) (cs_buffer c)) as [ls [|]]; [|discriminate]. injection E1 as _ <-. exact E2.
Qed.
Lemma last_flush w tags os1 os2 d1 d2 now all c : tm_ok tags -> Forall (fun l => otm_ok (l_tags l)) (lines_of os2) -> flushed os1 -> no_flush os2 ->
  c_run hfun (c_init w tags) (os1 ++ os2 ++ [CFlush d1 d2 now]) = (all, Some c) ->
  exists outs ls b, all = outs ++ [printed d1 d2 ls (b_iter b)] /\
    Forall2 (fun l row => exists tg, filled l tags tg /\ shows_line l tg row) (lines_of os2) ls /\
    b_run hfun (b_new w) (bops (os1 ++ os2)) = Some b.
Proof.
  intros Ht Hl Hf Hn E. rewrite c_run_app in E. destruct (c_run hfun (c_init w tags) os1) as [outs [c1|]] eqn:E1; [|discriminate].
  pose proof (flushed_buffer _ _ _ _ _ Hf E1) as Ebuf. destruct (run_buckets _ _ _ _ E1) as [Eb Et]. cbn in Eb, Et.
  rewrite c_run_app in E. destruct (c_run hfun c1 os2) as [o2 [c2|]] eqn:E2; [|discriminate]. destruct (run_buckets _ _ _ _ E2) as [Eb2 Et2].
  rewrite (quiet_run os2 Hn c1 _ Eb2), Ebuf, Et in E2. apply pair_equal_spec in E2 as [<- Ec]. injection Ec as Ec.
  assert (E3 : cs_tags c2 = tags /\ cs_buffer c2 = lines_of os2) by (rewrite <- Ec; split; reflexivity). destruct E3 as [Et3 Eb3]. cbn [c_run c_step app] in E. unfold c_flush in E. rewrite Et3, Eb3 in E.
  destruct (line_rows tags (lines_of os2)) as [rows ok] eqn:El. destruct ok; [|discriminate]. injection E as <- _.
  destruct (line_rows_shows tags (lines_of os2) (line_rows_true _ _ _ El) Hl Ht) as (rows' & El' & F). rewrite El in El'. injection El' as <-.
  exists outs, rows, (cs_aggrs c2). rewrite report_sections. split; [reflexivity|]. split; [exact F|]. unfold bops. rewrite flat_map_app. fold (bops os1) (bops os2). rewrite b_run_app, Eb. exact Eb2.
Qed.

(** ** The aggregation at a flush *)
Lemma adds_bops os : adds (bops os) = points_of os.
Proof. induction os as [|[t|l|d1 d2 now] os IH]; cbn; [reflexivity| | |]; [f_equal|..]; exact IH. Qed.
Lemma nodup_points (f : telemetry -> list string * Z) l : (forall l1 p l2 q l3, l = l1 ++ p :: l2 ++ q :: l3 -> f p <> f q) -> NoDup (map f l).
Proof.
  induction l as [|x l IH]; intros H; cbn; constructor.
  - intros Hin. apply in_map_iff in Hin as (y & E & Hy). apply in_split in Hy as (l2 & l3 & ->). apply (H [] x l2 y l3); [reflexivity|congruence].
  - apply IH. intros l1 p l2 q l3 ->. apply (H (x :: l1) p l2 q l3). reflexivity.
Qed.
Lemma iter_lists w os b : (0 < w)%Z -> no_collision hfun (adds os) -> b_run hfun (b_new w) os = Some b ->
  exists M, run_spec w empty_map os M /\ lists_map w (b_iter b) M.
Proof.
  intros Hw Hn Hr. destruct (C01_buffer_refines_map Q hfun w os Hw Hn) as (b' & M & H1 & H2 & H3). rewrite Hr in H1. injection H1 as <-.
  exists M. split; [exact H2|]. split; [exact H3|]. apply nodup_points. intros l1 p l2 q l3 E Epq. apply pair_equal_spec in Epq as [E1 E2].
  exact (C01_one_point_per_bin Q hfun w os b p q l1 l2 l3 Hw Hn Hr E E1 E2).
Qed.
Lemma run_spec_app w os1 : forall M os2 M2, run_spec w M (os1 ++ os2) M2 -> exists M1, run_spec w M os1 M1 /\ run_spec w M1 os2 M2.
Proof.
  induction os1 as [|o os1 IH]; intros M os2 M2 H; cbn in H; [exists M; split; [constructor|exact H]|].
  inversion H as [|? ? M1 ? ? Ho Hr]; subst. destruct (IH _ _ _ Hr) as (M' & H1 & H2). exists M'. split; [econstructor; eauto|exact H2].
Qed.
(** without persisted points nothing is carried over a flush *)
Lemma plain_points w os : forall M M', Forall (fun t => t_persist t = false) (adds os) -> (forall s k p, M s k = Some p -> t_persist p = false) ->
  run_spec w M os M' -> forall s k p, M' s k = Some p -> t_persist p = false.
Proof.
  induction os as [|o os IH]; intros M M' Hp HM H; inversion H as [|? ? M1 ? ? Ho Hr]; subst; [exact HM|].
  apply (IH M1 M'); [| |exact Hr].
  - destruct o; cbn in Hp; [inversion Hp; assumption|exact Hp].
  - destruct o as [t|now]; cbn in Ho.
    + cbn in Hp. inversion Hp as [|? ? Hpt _]; subst. intros s k p Hk.
      assert (Hd : (s = series_key t /\ k = pbin w t) \/ (s <> series_key t \/ k <> pbin w t)).
      { destruct (list_eq_dec string_dec s (series_key t)); [|tauto]. destruct (Z.eq_dec k (pbin w t)); tauto. }
      destruct Ho as [p0 H1 [H2 H3]|k' p0 _ H1 _ _ _ _|H1 _ [H2 H3]]; [|congruence|]; (destruct Hd as [[-> ->]|Hd]; [|rewrite H3 in Hk by exact Hd; eauto]);
        rewrite H2 in Hk; injection Hk as <-; [cbn|]; assumption.
    + intros s k p Hk. apply Ho in Hk as (_ & k0 & p0 & [Hk0 _] & E & _). rewrite (HM _ _ _ Hk0) in E. discriminate.
Qed.
Lemma bops_quiet os : no_flush os -> bops os = map BAdd (points_of os).
Proof. induction 1 as [|[t|l|] os Ho Hos IH]; cbn; [reflexivity| | |contradiction]; [f_equal|]; exact IH. Qed.
Lemma fresh_epoch w os1 os2 M : Forall (fun t => t_persist t = false) (points_of (os1 ++ os2)) -> flushed os1 -> no_flush os2 ->
  run_spec w empty_map (bops (os1 ++ os2)) M -> forall s k, M s k = merged (filter (here w s k) (points_of os2)).
Proof.
  intros Hp Hf Hn H. unfold bops in H. rewrite flat_map_app in H. fold (bops os1) (bops os2) in H. apply run_spec_app in H as (M1 & H1 & H2). rewrite (bops_quiet _ Hn) in H2.
  unfold points_of in Hp. rewrite flat_map_app in Hp. apply Forall_app in Hp as [Hp1 Hp2].
  apply (plain_run w (points_of os2) [] M1 M); [|exact Hp2|exact H2]. intros s k. cbn.
  destruct Hf as [->|(os0 & d1 & d2 & now & ->)].
  - inversion H1; subst. reflexivity.
  - unfold bops in H1. rewrite flat_map_app in H1. apply run_spec_app in H1 as (M0 & H0 & H1). inversion H1 as [|? ? M1' ? ? Ho Hr]; subst. inversion Hr; subst.
    destruct (M1 s k) as [p|] eqn:E; [|reflexivity]. apply Ho in E as (_ & k0 & p0 & [Hk0 _] & E & _).
    rewrite flat_map_app in Hp1. apply Forall_app in Hp1 as [Hp1 _]. fold (bops os0) in H0. fold (points_of os0) in Hp1. rewrite <- adds_bops in Hp1.
    rewrite (plain_points w (bops os0) empty_map M0 Hp1) with (s := s) (k := k0) (p := p0) in E; [discriminate|intros ? ? ? [=]|exact H0|exact Hk0].
Qed.
End Console.
