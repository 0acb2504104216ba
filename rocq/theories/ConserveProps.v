(** * C159: of the counts delivered to the wavefront sink each is written once. *)
From Verif Require Import Base BaseFacts FloatFacts TelemetryModel TelemetrySpec TelemetryProofs QExample TelemetryProps BucketsModel BucketsSpec BucketsProofs BucketsProps ConsoleModel ConsoleSpec ConsoleProofs ParseModel ParseSpec ParseProps NumberModel NumberSpec NumberProps
  WavefrontModel WavefrontSpec WavefrontProofs WavefrontProps ArriveSpec ArriveProofs ArriveProps RoundSpec RoundProofs ArithProofs CountSpec CountProps ConserveSpec ConserveProofs.
From Coq Require Import Lia.
Open Scope string_scope. Open Scope list_scope. Open Scope Z_scope.

Lemma since_incl {Q : QLib} os : incl (since os) (adds os).
Proof.
  induction os as [|o os IH] using rev_ind; [intros t []|]. unfold adds, since. rewrite flat_map_app, fold_left_app. cbn. destruct o as [t|now]; [|intros x []]. cbn. fold (since os) (adds os).
  intros x Hx. apply in_or_app. apply in_app_or in Hx as [Hx|Hx]; [left; apply IH; exact Hx|right; exact Hx].
Qed.

(** Whatever is delivered and whenever it is flushed: what the flushes wrote of
    a series, zeros of padding among it, and what waits make up what came. *)
Theorem C159_conserved : forall (Q : QLib) hkind hfun show_f show_n show_z c (n : telemetry -> Z) s ops stream w logs,
  (forall a b, feqb a b = true -> show_f a = show_f b) -> 0 < wc_span c -> wc_age c = None -> no_collision hfun (wave_points ops) ->
  (forall t, In t (wave_points ops) -> series_key t = s -> t_persist t = false /\ counts_as t (n t)) -> countable (map n (filter (of_series s) (wave_points ops))) ->
  w_run hkind hfun show_f show_n show_z c ops (wave_init c stream) = Some (w, logs) ->
  exists written, Forall2 (fun points log => flushed (texts (map (point_text show_f show_n show_z (wc_tags c) (wc_percentiles c)) points)) log) written logs /\
    adds_up (filter (of_series s) (List.concat written ++ b_iter (w_aggrs w)))
      (CountSpec.total (map n (filter (of_series s) (wave_points ops)))) (CountSpec.total (map Z.abs (map n (filter (of_series s) (wave_points ops))))).
Proof.
  intros Q hkind hfun show_f show_n show_z c n s ops stream w logs Hsame Hspan Hage Hn Hc Hroom Hrun.
  set (T := fun l => CountSpec.total (map n (filter (of_series s) l))). set (A := fun l => CountSpec.total (map Z.abs (map n (filter (of_series s) l)))).
  assert (TA : forall l l', T (l ++ l') = T l + T l') by (intros; unfold T; rewrite filter_app, map_app; apply tot_app).
  assert (AA : forall l l', A (l ++ l') = A l + A l') by (intros; unfold A; rewrite filter_app, !map_app; apply tot_app).
  assert (AP : forall l, 0 <= A l) by (intros; apply tot_abs_pos).
  assert (B : forall os w1 l1, incl (wave_points os) (wave_points ops) -> A (since (wave_bops os)) <= 2 ^ 53 -> w_run hkind hfun show_f show_n show_z c os (wave_init c stream) = Some (w1, l1) ->
    adds_up (filter (of_series s) (b_iter (w_aggrs w1))) (T (since (wave_bops os))) (A (since (wave_bops os)))).
  { intros os w1 l1 Hi Ha R. apply (buffer_adds_up (wc_span c) s n hfun (wave_bops os) (w_aggrs w1) Hspan).
    - rewrite wave_bops_adds. intros x y Hx Hy. apply Hn; apply Hi; assumption.
    - exact (wave_buckets hkind hfun show_f show_n show_z c Hsame Hage os _ _ _ R).
    - rewrite wave_bops_adds. intros t Ht. apply Hc, Hi, Ht.
    - apply since_incl.
    - exact Ha. }
  assert (G : forall os w1 l1, incl (wave_points os) (wave_points ops) -> A (wave_points os) <= 2 ^ 53 -> w_run hkind hfun show_f show_n show_z c os (wave_init c stream) = Some (w1, l1) ->
    exists written r, Forall2 (fun points log => flushed (texts (map (point_text show_f show_n show_z (wc_tags c) (wc_percentiles c)) points)) log) written l1 /\
      adds_up (filter (of_series s) (List.concat written)) (T (wave_points os) - T (since (wave_bops os))) r /\ r + A (since (wave_bops os)) <= A (wave_points os)).
  { clear Hrun w logs. induction os as [|o os IH] using rev_ind; intros w1 l1 Hi Ha R.
    - injection R as <- <-. exists [], 0. split; [constructor|]. split; [exists []; split; [constructor|split; reflexivity]|reflexivity].
    - assert (Ep : wave_points (os ++ [o]) = wave_points os ++ wave_points [o]) by (unfold wave_points; apply flat_map_app). rewrite Ep in *. rewrite AA in Ha. pose proof (AP (wave_points [o])) as Ho.
      destruct (w_run_app hkind hfun show_f show_n show_z c os [o] _ _ _ R) as (w2 & l2 & l3 & R1 & R2 & ->).
      destruct (IH w2 l2) as (written & r & F & AU & Hr); [intros t Ht; apply Hi, in_or_app; left; exact Ht|lia|exact R1|]. assert (Eb : wave_bops (os ++ [o]) = wave_bops os ++ wave_bops [o]) by (unfold wave_bops; apply flat_map_app). rewrite Eb.
      destruct o as [now t|fuel now now' ans]; cbn [w_run] in R2.
      + destruct (w_deliver hfun c now t w2) as [w3|]; [|discriminate]. injection R2 as <- <-. exists written, r. rewrite app_nil_r. split; [exact F|].
        change (wave_bops [WDeliver now t]) with (map BAdd [t]). change (wave_points [WDeliver now t]) with [t]. rewrite since_adds, !TA, !AA.
        split; [|lia]. replace (T (wave_points os) + T [t] - (T (since (wave_bops os)) + T [t])) with (T (wave_points os) - T (since (wave_bops os))) by lia. exact AU.
      + destruct (w_flush hkind hfun show_f show_n show_z c fuel now now' ans w2) as [[w3 log]|] eqn:Ef; [|discriminate]. injection R2 as <- <-.
        assert (Hs : A (since (wave_bops os)) <= 2 ^ 53) by (destruct AU as (zs & _ & _ & Hz); pose proof (tot_abs_pos zs); lia).
        assert (Bu := B os w2 l2 ltac:(intros t Ht; apply Hi, in_or_app; left; exact Ht) Hs R1).
        pose proof R1 as R0. apply C42_wavefront_flush in R0 as [H0 _]. unfold w_flush in Ef. destruct (format_stats hkind hfun show_f show_n show_z c fuel now w2) as [wf|] eqn:Es; [|discriminate].
        destruct (format_text _ _ _ _ Hsame _ _ _ _ _ _ Es) as (pads & points & Hd & Hsh & Ht & _). apply flush_loop_spec in Ef as (F1 & _). rewrite Ht, H0 in F1. cbn [String.append] in F1.
        assert (Hne : wc_span c <> 0) by lia. destruct (C39_padding_only_inserts _ _ _ _ _ _ _ _ Hne Hd) as [Ho' Wv].
        assert (P : adds_up (filter (of_series s) points) (T (since (wave_bops os))) (A (since (wave_bops os)))).
        { apply (pads_add_up s now (b_iter (w_aggrs w2)) _ _ pads points Hsh).
          - intros t ts Hz. destruct (woven_zeros _ _ _ _ _ Wv Hz) as (x & Hx & _). exact Hx.
          - intros t Hin Hk. destruct Bu as (zs & Fz & _). assert (Hf : In t (filter (of_series s) (b_iter (w_aggrs w2)))) by (apply filter_In; split; [exact Hin|apply of_series_iff; exact Hk]).
            clear - Fz Hf. induction Fz as [|? z ? ? Hz _ IH]; [destruct Hf|]. destruct Hf as [<-|Hf]; [exists z; exact Hz|exact (IH Hf)].
          - rewrite Ho'. exact Bu. }
        exists (written ++ [points]), (r + A (since (wave_bops os))). split; [apply Forall2_app; [exact F|constructor; [exact F1|constructor]]|].
        replace (since (wave_bops os ++ wave_bops [WFlush fuel now now' ans])) with (@nil telemetry) by (unfold since; rewrite fold_left_app; reflexivity).
        change (wave_points [WFlush fuel now now' ans]) with (@nil telemetry). rewrite app_nil_r. change (T []) with 0. change (A []) with 0. rewrite Z.sub_0_r. split; [|lia].
        rewrite concat_app. cbn [List.concat]. rewrite app_nil_r, filter_app. replace (T (wave_points os)) with ((T (wave_points os) - T (since (wave_bops os))) + T (since (wave_bops os))) by lia. apply adds_up_app; assumption. }
  destruct (G ops w logs (fun _ H => H) Hroom Hrun) as (written & r & F & AU & Hr). exists written. split; [exact F|].
  assert (Hs : A (since (wave_bops ops)) <= 2 ^ 53) by (destruct AU as (zs & _ & _ & Hz); pose proof (tot_abs_pos zs); fold (A (wave_points ops)) in *; unfold countable in Hroom; fold (A (wave_points ops)) in Hroom; lia).
  assert (Bu := B ops w logs (fun _ H => H) Hs Hrun). rewrite filter_app. fold (T (wave_points ops)) (A (wave_points ops)).
  destruct (adds_up_app _ _ _ _ _ _ AU Bu) as (zs & Z1 & Z2 & Z3). exists zs. split; [exact Z1|]. split; lia.
Qed.

(** After a flush nothing of the series waits: all of it was written. *)
Theorem C159_written : forall (Q : QLib) hkind hfun show_f show_n show_z c (n : telemetry -> Z) s ops fuel now now' ans stream w logs,
  (forall a b, feqb a b = true -> show_f a = show_f b) -> 0 < wc_span c -> wc_age c = None -> no_collision hfun (wave_points ops) ->
  (forall t, In t (wave_points ops) -> series_key t = s -> t_persist t = false /\ counts_as t (n t)) -> countable (map n (filter (of_series s) (wave_points ops))) ->
  w_run hkind hfun show_f show_n show_z c (ops ++ [WFlush fuel now now' ans]) (wave_init c stream) = Some (w, logs) ->
  exists written, Forall2 (fun points log => flushed (texts (map (point_text show_f show_n show_z (wc_tags c) (wc_percentiles c)) points)) log) written logs /\
    exists zs, Forall2 counts_as (filter (of_series s) (List.concat written)) zs /\ countable zs /\ CountSpec.total zs = CountSpec.total (map n (filter (of_series s) (wave_points ops))) /\
      fold_left fadd (map fofZ zs) fzero = fofZ (CountSpec.total (map n (filter (of_series s) (wave_points ops)))).
Proof.
  intros Q hkind hfun show_f show_n show_z c n s ops fuel now now' ans stream w logs Hsame Hspan Hage Hn Hc Hroom Hrun.
  assert (Ep : wave_points (ops ++ [WFlush fuel now now' ans]) = wave_points ops) by (unfold wave_points; rewrite flat_map_app; apply app_nil_r). rewrite <- Ep in Hn, Hc, Hroom |- *.
  destruct (C159_conserved Q hkind hfun show_f show_n show_z c n s _ stream w logs Hsame Hspan Hage Hn Hc Hroom Hrun) as (written & F & zs & Z1 & Z2 & Z3). exists written. split; [exact F|]. exists zs.
  assert (E : filter (of_series s) (b_iter (w_aggrs w)) = []).
  { destruct (filter (of_series s) (b_iter (w_aggrs w))) as [|p l] eqn:El; [reflexivity|exfalso]. assert (Hin : In p (filter (of_series s) (b_iter (w_aggrs w)))) by (rewrite El; left; reflexivity). apply filter_In in Hin as [Hin Hs]. apply of_series_iff in Hs.
    destruct (iter_lists hfun (wc_span c) (wave_bops (ops ++ [WFlush fuel now now' ans])) (w_aggrs w) Hspan) as (M & RM & LM & _).
    - rewrite wave_bops_adds. exact Hn.
    - exact (wave_buckets hkind hfun show_f show_n show_z c Hsame Hage _ _ _ _ Hrun).
    - assert (X : M s (pbin (wc_span c) p) = Some p) by (apply LM; auto).
      rewrite (proj1 (epoch_series (wc_span c) s _ (fun t Ht => fun Hs => proj1 (Hc t ltac:(rewrite <- wave_bops_adds; exact Ht) Hs)) M RM (pbin (wc_span c) p))) in X.
      unfold wave_bops in X. rewrite flat_map_app in X. unfold since in X. rewrite fold_left_app in X. discriminate X. }
  rewrite filter_app, E, app_nil_r in Z1. split; [exact Z1|]. assert (C : countable zs) by (unfold countable in *; lia). split; [exact C|]. split; [exact Z2|].
  rewrite <- Z2. unfold countable in C. destruct (fold_whole zs 0 C) as [X _]. exact X.
Qed.

(** a whole float as the number it is *)
Definition whole_of (x : f64) : Z := sunits x / 2 ^ 1074.
Lemma whole_back z : Z.abs z <= 2 ^ 53 -> whole_of (fofZ z) = z.
Proof.
  intros H. unfold whole_of. rewrite (proj2 (fofZ_exact z H)). apply Z.div_mul. apply Z.pow_nonzero; discriminate.
Qed.

(** Counts as clients write them to the statsd source, under a name, with any
    other points between them: the sums written to the server under that name
    make the total of the counts, to the last one. *)
Theorem C159_statsd : forall (Q : QLib) named cfg (base : telemetry) hkind hfun show_f show_n show_z c name (ls : list count_line) ops fuel now now' ans stream w logs,
  cfg_ok cfg -> Forall well_written ls -> countable (map cl_count ls) -> Forall (fun l => cl_name l = name) ls ->
  Forall2 (fun l t => parse_statsd (parse_f64 named) cfg (cl_time l) base (count_text l) [] = PReturn true [t]) ls (filter (of_series (name :: flat_tags (t_tags base))) (wave_points ops)) ->
  (forall a b, feqb a b = true -> show_f a = show_f b) -> 0 < wc_span c -> wc_age c = None -> no_collision hfun (wave_points ops) ->
  w_run hkind hfun show_f show_n show_z c (ops ++ [WFlush fuel now now' ans]) (wave_init c stream) = Some (w, logs) ->
  exists written, Forall2 (fun points log => flushed (texts (map (point_text show_f show_n show_z (wc_tags c) (wc_percentiles c)) points)) log) written logs /\
    exists zs, Forall2 counts_as (filter (of_series (name :: flat_tags (t_tags base))) (List.concat written)) zs /\ countable zs /\ CountSpec.total zs = CountSpec.total (map cl_count ls).
Proof.
  intros Q named cfg base hkind hfun show_f show_n show_z c name ls ops fuel now now' ans stream w logs Hcf Hw Hroom Hnm Hp Hsame Hspan Hage Hn Hrun.
  set (s := name :: flat_tags (t_tags base)) in *. set (n := fun t : telemetry => match t_value t with VSum x => whole_of x | _ => 0 end).
  assert (G : Forall2 (fun l t => t_persist t = false /\ counts_as t (cl_count l) /\ n t = cl_count l) ls (filter (of_series s) (wave_points ops))).
  { clear - Hp Hw Hcf. induction Hp as [|l t ls ts P _ IH]; constructor; inversion Hw as [|? ? (W1 & W2 & W3 & W4 & W5 & W6 & W7) Hw']; subst; [|exact (IH Hw')].
    assert (Pf : parse_f64 named (cl_text l) = Some (fofZ (cl_count l))) by (rewrite (C151_whole named (cl_text l) (cl_count l) W4 ltac:(lia)), opp_whole by lia; reflexivity).
    destruct (C28_gauge_and_counter Q (parse_f64 named) cfg (cl_time l) base (cl_name l) (cl_text l) _ false (cl_text l) _ Hcf W1 W2 W3 Pf Pf) as (_ & G & _).
    destruct (G W7) as (t' & E & _ & _ & _ & H4 & H5). assert (Et : @PReturn Q true [t'] = PReturn true [t]) by (etransitivity; [symmetry; exact E|exact P]). injection Et as Et. subst t'. split; [exact H4|]. split; [exact H5|]. unfold n. rewrite H5. apply whole_back. lia. }
  assert (En : map n (filter (of_series s) (wave_points ops)) = map cl_count ls) by (clear - G; induction G as [|? ? ? ? (_ & _ & H) _ IH]; cbn; [reflexivity|rewrite H, IH; reflexivity]).
  assert (Hc : forall t, In t (wave_points ops) -> series_key t = s -> t_persist t = false /\ counts_as t (n t)).
  { intros t Ht Hs. assert (Hf : In t (filter (of_series s) (wave_points ops))) by (apply filter_In; split; [exact Ht|apply of_series_iff; exact Hs]). clear - G Hf. induction G as [|? ? ? ? (H1 & H2 & H3) _ IH]; [destruct Hf|]. destruct Hf as [<-|Hf]; [rewrite H3; auto|exact (IH Hf)]. }
  destruct (C159_written Q hkind hfun show_f show_n show_z c n s ops fuel now now' ans stream w logs Hsame Hspan Hage Hn Hc) as (written & F & zs & Z1 & Z2 & Z3 & _); [rewrite En; exact Hroom|exact Hrun|].
  exists written. split; [exact F|]. exists zs. rewrite <- En. auto.
Qed.

(** four counts in two flushes, a gauge that persists between them, zeros of padding *)
Definition c159_ops : list (@wop xQ) :=
  [WDeliver 0 (mkTelemetry "a" (VSum (fofZ 3)) false None 5 None None); WDeliver 0 (mkTelemetry "g" (VSet fone) true None 5 None None); WDeliver 0 (mkTelemetry "a" (VSum (fofZ (-1))) false None 5 None None);
   WFlush 20 0 0 [AWrite false 3; AConnect true; AWrite true 0]; WDeliver 0 (mkTelemetry "a" (VSum (fofZ 5)) false None 100 None None); WDeliver 0 (mkTelemetry "a" (VSum (fofZ 2)) false None 300 None None)].
Definition c159_cfg : wcfg := mkWcfg 1 [] (mkPC true true true true) [] None.
Definition c159_hash (s : list string) : N := match s with "a" :: _ => 1 | "g" :: _ => 2 | _ => 3 end%N.
Definition c159_show (x : f64) : string := if feqb x fzero then "0" else if feqb x (fofZ 2) then "2" else if feqb x (fofZ 5) then "5" else "1".
Lemma c159_ok : no_collision c159_hash (wave_points c159_ops).
Proof. intros a b Ha Hb. cbn in Ha, Hb. decompose [or] Ha; decompose [or] Hb; subst; try contradiction; vm_compute; intros H; try reflexivity; discriminate H. Qed.
Example C159_ex : (forall t, In t (wave_points c159_ops) -> series_key t = ["a"] -> t_persist t = false /\ counts_as t (match t_value t with VSum x => whole_of x | _ => 0 end)) /\
  countable [3; -1; 5; 2] /\ wc_age c159_cfg = None /\
  option_map (fun r => map (fun l => map (fun x => fst (fst x)) l) (snd r)) (w_run (fun s _ => c159_hash s) c159_hash c159_show (fun _ => "n") (fun z => if z =? 5 then "5" else if z =? 100 then "100" else "t") c159_cfg
    (c159_ops ++ [WFlush 20 0 0 [AWrite true 0]]) (wave_init c159_cfg true)) =
  Some [[("a 2 5 " ++ nl ++ "g 1 5 " ++ nl)%string; ("a 2 5 " ++ nl ++ "g 1 5 " ++ nl)%string]; [("a 0 t " ++ nl ++ "a 0 t " ++ nl ++ "a 5 100 " ++ nl ++ "a 0 t " ++ nl ++ "a 0 t " ++ nl ++ "a 2 t " ++ nl ++ "g 1 t " ++ nl)%string]].
Proof.
  split; [intros t Ht; unfold wave_points, c159_ops in Ht; cbn [flat_map app In] in Ht; decompose [or] Ht; try contradiction; subst t; intros H; cbn [t_value t_persist counts_as]; try (vm_compute in H; discriminate H); (split; [reflexivity|unfold counts_as; cbn [t_value]; rewrite whole_back by (vm_compute; discriminate); reflexivity])|]. split; [vm_compute; discriminate|]. split; [reflexivity|]. vm_compute. reflexivity.
Qed.

Print Assumptions C159_conserved.
Print Assumptions C159_written.
Print Assumptions C159_statsd.
