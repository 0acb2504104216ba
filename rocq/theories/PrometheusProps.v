(** * Properties of the prometheus sink. *)
From Verif Require Import Base BaseFacts TelemetryModel QExample TelemetryProofs TelemetryProps BucketsSpec FiltersModel FiltersProofs WavefrontModel WavefrontSpec WavefrontProofs WavefrontProps PrometheusModel PrometheusSpec PrometheusProofs.
Open Scope string_scope. Open Scope list_scope. Open Scope nat_scope.

(** ** C44 *)
(** without purges a summary's window is exactly the newest [cap] seconds *)
Theorem C44_window : forall (Q : QLib) (cap : N) (history : list telemetry) (a : aggr) (bs : list bool) (n : string) (c : N) (s : f64) (k : N) (samples : list telemetry),
  (1 <= cap)%N -> pa_run (map PInsert history) (pa_new cap) = Some (a, bs) ->
  alookup seqb n (pa_data a) = Some (AWin c s k samples) ->
  window_of cap (of_metric n MSummarize history) samples.
Proof.
  intros Q cap history a bs n c s k samples Hc Hr Hl. apply (run_lane_ok cap n) in Hr. rewrite Hl in Hr. destruct Hr as [_ (_ & _ & _ & _ & _ & _ & H)].
  assert (Ei : inserted (map PInsert history) = history) by (clear; unfold inserted; induction history as [|t r IH]; cbn; [reflexivity|f_equal; exact IH]).
  rewrite Ei in H. apply H; [assumption|]. intros now Hin. apply in_map_iff in Hin as (t & Ht & _). discriminate.
Qed.
(** with purges at any time: sorted seconds, at most [cap] of them, and running totals of everything inserted *)
Theorem C44_totals_and_bounds : forall (Q : QLib) (cap : N) (ops : list pop) (a : aggr) (bs : list bool) (n : string) (c : N) (s : f64) (k : N) (samples : list telemetry),
  (1 <= cap)%N -> pa_run ops (pa_new cap) = Some (a, bs) ->
  alookup seqb n (pa_data a) = Some (AWin c s k samples) ->
  let pts := of_metric n MSummarize (inserted ops) in
  c = cap /\ StronglySorted earlier samples /\ (N.of_nat (List.length samples) <= cap)%N /\
  ((N.of_nat (List.length pts) < 18446744073709551615)%N -> k = N.of_nat (List.length pts)) /\
  exists v vs, Forall2 (fun t v => t_query t fone = Some v) pts (v :: vs) /\ (no_overflow v vs -> s = float_sum (v :: vs)).
Proof.
  intros Q cap ops a bs n c s k samples Hc Hr Hl. apply (run_lane_ok cap n) in Hr. rewrite Hl in Hr.
  destruct Hr as [_ (-> & _ & H1 & H2 & H3 & (v & vs & H4 & ->) & _)]. repeat split; auto.
  - intros Hlt. apply Forall2_length_N in H4. rewrite H3, N.mod_small by lia. lia.
  - exists v, vs. split; [assumption|]. apply sums_agree.
Qed.
(** the count of points, without a bound: it restarts at one after 2^64 - 2 *)
Theorem C44_count : forall (Q : QLib) (cap : N) (ops : list pop) (a : aggr) (bs : list bool) (n : string) (c : N) (s : f64) (k : N) (samples : list telemetry),
  pa_run ops (pa_new cap) = Some (a, bs) -> alookup seqb n (pa_data a) = Some (AWin c s k samples) ->
  (k = (N.of_nat (List.length (of_metric n MSummarize (inserted ops))) - 1) mod (2 ^ 64 - 2) + 1)%N.
Proof. intros Q cap ops a bs n c s k samples Hr Hl. apply (run_lane_ok cap n) in Hr. rewrite Hl in Hr. apply Hr. Qed.
(** a purge counts what it removes *)
Theorem C44_purge_counts : forall (Q : QLib) (now : Z) (a : aggr), pa_purged now a + held_samples (pa_purge now a) = held_samples a.
Proof.
  intros Q now a. unfold pa_purged, held_samples, pa_purge. cbn [pa_data]. rewrite map_map. induction (pa_data a) as [|[n x] l IH]; [reflexivity|].
  cbn [map list_sum fst snd]. unfold list_sum in *. cbn [fold_right]. rewrite <- IH.
  destruct x as [p|c s k samples]; cbn [a_purge fst snd]; [lia|].
  pose proof (filter_le (fun t => negb (as_i64 c <? abs64 (wrap64 (t_timestamp t - now)))%Z) samples). lia.
Qed.
(** a purge keeps exactly the samples of the last [cap] seconds (and those of the next ones) *)
Theorem C44_purge : forall (Q : QLib) (now : Z) (a : aggr) (n : string) (cap : N) (s : f64) (k : N) (samples : list telemetry),
  alookup seqb n (pa_data a) = Some (AWin cap s k samples) -> (Z.of_N cap <= i64_max)%Z ->
  (forall t, In t samples -> (i64_min < t_timestamp t - now <= i64_max)%Z) ->
  alookup seqb n (pa_data (pa_purge now a)) = Some (AWin cap s k (filter (fun t => Z.abs (t_timestamp t - now) <=? Z.of_N cap)%Z samples)).
Proof.
  intros Q now a n cap s k samples Hl Hc Ht. rewrite purge_lookup, Hl. cbn [option_map a_purge fst]. do 2 f_equal. apply filter_ext_in. intros t Hin.
  rewrite abs64_id by (apply Ht; assumption). unfold as_i64, i64_max in *. rewrite wrap64_id by lia. rewrite <- Z.leb_antisym. reflexivity.
Qed.

(** ** C45 *)
(** acceptance is decided by the kind of the first point of the name; a refusal changes nothing *)
Theorem C45_accepts : forall (Q : QLib) (cap : N) (ops : list pop) (a a' : aggr) (bs : list bool) (t : telemetry) (b : bool),
  pa_run ops (pa_new cap) = Some (a, bs) -> pa_insert a t = Some (a', b) ->
  b = match find (fun x => seqb (t_name x) (t_name t)) (inserted ops) with Some t0 => meth_eqb (t_kind t0) (t_kind t) | None => true end /\
  (b = false -> a' = a) /\
  (forall n, n <> t_name t -> alookup seqb n (pa_data a') = alookup seqb n (pa_data a)).
Proof.
  intros Q cap ops a a' bs t b Hr Hi. pose proof (run_lane_ok cap (t_name t) _ _ _ Hr) as Hk. split; [|split].
  - unfold pa_insert in Hi. destruct (alookup seqb (t_name t) (pa_data a)) as [prev|].
    + destruct Hk as [(t0 & F & K) _]. unfold named in F. rewrite F, K. destruct (meth_eqb (a_kind prev) (t_kind t)); [|injection Hi as <- <-; reflexivity].
      destruct (a_insert prev t); [|discriminate]. injection Hi as <- <-. reflexivity.
    + cbn in Hk. pose proof (find_named_none (t_name t) _ Hk) as F. unfold named in F. rewrite F.
      destruct (t_kind t); try (injection Hi as <- <-; reflexivity). destruct (t_query t fone); [|discriminate]. injection Hi as <- <-; reflexivity.
  - intros ->. unfold pa_insert in Hi. destruct (alookup seqb (t_name t) (pa_data a)) as [prev|].
    + destruct (meth_eqb (a_kind prev) (t_kind t)); [|injection Hi as <-; reflexivity]. destruct (a_insert prev t); discriminate.
    + destruct (t_kind t); try discriminate. destruct (t_query t fone); discriminate.
  - intros n Hn. destruct (insert_lane _ _ _ _ n Hi) as [_ H]. cbn [lane_step] in H.
    destruct (seqb (t_name t) n) eqn:E; [apply seqb_eq in E; congruence|]. injection H as H. symmetry. exact H.
Qed.
(** what is stored for a name is the in-order merge of the points of that name and kind *)
Theorem C45_content : forall (Q : QLib) (cap : N) (ops : list pop) (a : aggr) (bs : list bool) (n : string) (p : telemetry),
  pa_run ops (pa_new cap) = Some (a, bs) -> alookup seqb n (pa_data a) = Some (APerp p) ->
  t_name p = n /\ merged (of_metric n (t_kind p) (inserted ops)) = Some p /\
  exists t0, find (fun x => seqb (t_name x) n) (inserted ops) = Some t0 /\ t_kind t0 = t_kind p.
Proof.
  intros Q cap ops a bs n p Hr Hl. apply (run_lane_ok cap n) in Hr. rewrite Hl in Hr. destruct Hr as [H1 (_ & H2 & H3)]. auto.
Qed.
Theorem C45_count : forall (Q : QLib) (cap : N) (ops : list pop) (a : aggr) (bs : list bool),
  pa_run ops (pa_new cap) = Some (a, bs) -> pa_count a = List.length (nodup string_dec (map t_name (inserted ops))).
Proof.
  intros Q cap ops a bs Hr. destruct (run_keys _ _ _ _ Hr) as [Hn Hk]; [constructor|]. unfold pa_count. rewrite <- (map_length fst).
  apply Permutation_length. apply NoDup_Permutation; [assumption|apply NoDup_nodup|]. intros k. rewrite Hk, nodup_In. cbn. tauto.
Qed.
(** the kind of a metric never changes *)
Theorem C45_kind_stable : forall (Q : QLib) (cap : N) (ops1 ops2 : list pop) (a1 a2 : aggr) (bs1 bs2 : list bool) (n : string) (x : acc),
  pa_run ops1 (pa_new cap) = Some (a1, bs1) -> pa_run (ops1 ++ ops2) (pa_new cap) = Some (a2, bs2) ->
  alookup seqb n (pa_data a1) = Some x -> exists y, alookup seqb n (pa_data a2) = Some y /\ a_kind y = a_kind x.
Proof.
  intros Q cap ops1 ops2 a1 a2 bs1 bs2 n x H1 H2 Hl. apply (run_lane_ok cap n) in H1. apply (run_lane_ok cap n) in H2. rewrite Hl in H1. destruct H1 as [(t0 & F & K) _].
  pose proof F as F'. apply find_some in F' as [Hin Hnm]. apply seqb_eq in Hnm.
  destruct (alookup seqb n (pa_data a2)) as [y|].
  - exists y. split; [reflexivity|]. destruct H2 as [(t1 & F1 & K1) _]. rewrite inserted_app in F1.
    assert (E : find (named n) (inserted ops1 ++ inserted ops2) = Some t0).
    { clear -F. induction (inserted ops1) as [|u l IH]; [discriminate|]. cbn in *. destruct (named n u); auto. }
    rewrite E in F1. injection F1 as <-. congruence.
  - exfalso. cbn in H2. apply (H2 t0); [|assumption]. rewrite inserted_app. apply in_or_app; auto.
Qed.

(** ** C46 *)
(** two counters that differ in their tags share one metric, with the tags of the first *)
Theorem C46_refuted : forall (Q : QLib) (cap : N) (t1 t2 : telemetry), t_name t1 = t_name t2 -> t_kind t1 = MSum -> t_kind t2 = MSum ->
  option_map (fun r => pa_data (fst r)) (pa_run [PInsert t1; PInsert t2] (pa_new cap)) = Some [(t_name t1, APerp (t_add t1 t2))] /\
  t_tags (t_add t1 t2) = t_tags t1.
Proof.
  intros Q cap t1 t2 Hn H1 H2. split; [|reflexivity]. assert (S : seqb (t_name t2) (t_name t2) = true) by (apply seqb_eq; reflexivity).
  cbn [pa_run]. unfold pa_insert at 1. cbn [pa_new pa_data alookup]. rewrite H1. cbn [ainsert pa_cap]. unfold pa_insert. cbn [pa_data alookup]. rewrite Hn, S. cbn [a_kind]. rewrite H1, H2. cbn. rewrite S. reflexivity.
Qed.
Example C46_refuted_example : exists t1 t2 : telemetry, t_name t1 = t_name t2 /\ t_tags t1 <> t_tags t2 /\ t_kind t1 = MSum /\ t_kind t2 = MSum.
Proof. exists (pt "n" (VSum fone) false (Some [("host", "a")]) 1), (pt "n" (VSum fone) false (Some [("host", "b")]) 1). repeat split. discriminate. Qed.

(** ** C48 *)
Lemma sanitize_len s : String.length (sanitize s) = String.length s.
Proof. induction s as [|c s IH]; cbn; auto. Qed.
Lemma ok_char_iff c : ok_char c = true <-> name_char c.
Proof.
  unfold ok_char, name_char. pose proof (nat_ascii_bounded c) as B. unfold nat_of_ascii in *.
  assert (E1 : c = ":"%char <-> N_of_ascii c = 58%N) by (split; [intros ->; reflexivity|intros H; rewrite <- (ascii_N_embedding c), H; reflexivity]).
  assert (E2 : c = "_"%char <-> N_of_ascii c = 95%N) by (split; [intros ->; reflexivity|intros H; rewrite <- (ascii_N_embedding c), H; reflexivity]).
  rewrite E1, E2. lia.
Qed.
Theorem C48_sanitized : forall name : string,
  Forall name_char (chars (sanitize name)) /\ String.length (sanitize name) = String.length name /\
  (Forall name_char (chars name) -> sanitize name = name) /\
  (forall i c, nth_error (chars name) i = Some c -> exists c', nth_error (chars (sanitize name)) i = Some c' /\ (name_char c -> c' = c) /\ (~ name_char c -> c' = "_"%char)).
Proof.
  intros s. split; [|split; [apply sanitize_len|split]].
  - induction s as [|c s IH]; cbn; [constructor|]. constructor; [|assumption]. destruct (ok_char c) eqn:E; [apply ok_char_iff; assumption|]. right; right; right; right. reflexivity.
  - induction s as [|c s IH]; cbn; [reflexivity|]. intros H. inversion H; subst. rewrite IH by assumption. assert (ok_char c = true) as -> by (apply ok_char_iff; assumption). reflexivity.
  - induction s as [|c s IH]; intros [|i] c0 H; cbn in *; try discriminate; [|auto]. injection H as <-. eexists; split; [reflexivity|].
    rewrite <- ok_char_iff. destruct (ok_char c); split; congruence.
Qed.
Theorem C48_refuted : exists a b, a <> b /\ sanitize a = sanitize b.
Proof. exists "a.b", "a_b". split; [discriminate|reflexivity]. Qed.
Example C48_example : sanitize "req.time-ms:p99" = "req_time_ms:p99".
Proof. reflexivity. Qed.

(** ** C49 *)
(** any order [l'] of the reportable points: one block per point, TYPE line first *)
Theorem C49_blocks : forall (Q : QLib) (show_f : f64 -> string) (cap : N) (ops : list pop) (a : aggr) (bs : list bool) (l l' : list telemetry) (default : tagmap) (ls : list pline),
  pa_run ops (pa_new cap) = Some (a, bs) -> pa_reportable a = Some l -> Permutation l l' -> write_lines show_f default [] l' = Some ls ->
  exists blocks, ls = List.concat blocks /\ Forall2 (fun t b => block (sanitize (t_name t)) (type_of (t_kind t)) b) l' blocks.
Proof.
  intros Q show_f cap ops a bs l l' default ls Hr Hl Hp Hw. pose proof (reportable_nodup _ _ _ _ _ Hr Hl) as Hn.
  assert (Hn' : NoDup (map t_name l')) by (eapply Permutation_NoDup; [apply Permutation_map; exact Hp|assumption]).
  destruct (write_lines_blocks show_f default l' [] ls Hn' ltac:(intros n []) Hw) as (blocks & -> & Hf). exists blocks. split; [reflexivity|].
  clear -Hf. induction Hf as [|t b l bl [H _] _ IH]; constructor; assumption.
Qed.
(** each of them shows exactly the point *)
Theorem C49_content : forall (Q : QLib) (show_f : f64 -> string) (cap : N) (ops : list pop) (a : aggr) (bs : list bool) (l l' : list telemetry) (default : tagmap) (ls : list pline),
  pa_run ops (pa_new cap) = Some (a, bs) -> pa_reportable a = Some l -> Permutation l l' -> write_lines show_f default [] l' = Some ls ->
  exists blocks, ls = List.concat blocks /\ Forall2 (exposed show_f default) l' blocks.
Proof.
  intros Q show_f cap ops a bs l l' default ls Hr Hl Hp Hw. pose proof (reportable_nodup _ _ _ _ _ Hr Hl) as Hn.
  assert (Hn' : NoDup (map t_name l')) by (eapply Permutation_NoDup; [apply Permutation_map; exact Hp|assumption]).
  destruct (write_lines_blocks show_f default l' [] ls Hn' ltac:(intros n []) Hw) as (blocks & -> & Hf). exists blocks. split; [reflexivity|].
  clear -Hf. induction Hf as [|t b l bl (_ & seen & seen' & H1 & H2) _ IH]; constructor; [|assumption]. eapply write_one_exposed; eassumption.
Qed.
(** and every metric that holds something is among the reportable points; a summary whose window
    is empty is left out without disturbing the others *)
Theorem C49_all_reported : forall (Q : QLib) (cap : N) (ops : list pop) (a : aggr) (bs : list bool),
  pa_run ops (pa_new cap) = Some (a, bs) ->
  exists l, pa_reportable a = Some l /\
    map t_name l = map fst (filter (fun kv => match snd kv with AWin _ _ _ [] => false | _ => true end) (pa_data a)).
Proof.
  intros Q cap ops a bs Hr. pose proof (run_named cap ops a bs Hr) as H. unfold pa_reportable.
  induction (pa_data a) as [|[n x] data IH]; [exists []; split; reflexivity|]. inversion H as [|? ? Hn Hd]; subst. destruct (IH Hd) as (l & El & Hl).
  cbn [map snd reported filter fst] in *. rewrite El. destruct x as [p|c s k [|s0 r]].
  - exists (p :: l). split; [reflexivity|]. cbn [map]. rewrite Hl. cbn in Hn |- *. f_equal. exact Hn.
  - exists l. split; [reflexivity|assumption].
  - inversion Hn as [|? ? [H1 H2] H3]; subst. destruct (report_win c s k s0 r) as (t & Et & En & _).
    + apply fold_add_kind; [assumption|]. eapply Forall_impl; [|exact H3]. intros x [_ Hx]. exact Hx.
    + rewrite Et. exists (t :: l). split; [reflexivity|]. cbn [map fst]. rewrite Hl, En. reflexivity.
Qed.
Definition type_names (ls : list pline) : list string := map line_name (filter is_type ls).
(** Missing: names that only differ in characters replaced by sanitize (C49_refuted) *)
Theorem C49_one_type_line_partial : forall (Q : QLib) (show_f : f64 -> string) (cap : N) (ops : list pop) (a : aggr) (bs : list bool) (l l' : list telemetry) (default : tagmap) (ls : list pline),
  pa_run ops (pa_new cap) = Some (a, bs) -> pa_reportable a = Some l -> Permutation l l' -> write_lines show_f default [] l' = Some ls ->
  (forall t u, In t l -> In u l -> sanitize (t_name t) = sanitize (t_name u) -> t_name t = t_name u) ->
  NoDup (type_names ls).
Proof.
  intros Q show_f cap ops a bs l l' default ls Hr Hl Hp Hw Hs. destruct (C49_blocks _ _ _ _ _ _ _ _ _ _ Hr Hl Hp Hw) as (blocks & -> & Hf).
  assert (E : type_names (List.concat blocks) = map (fun t => sanitize (t_name t)) l').
  { clear -Hf. induction Hf as [|t b l bl (samples & -> & Hb) _ IH]; [reflexivity|]. unfold type_names in *. cbn. rewrite filter_app, map_app, IH.
    assert (filter is_type samples = []) as -> by (clear -Hb; induction Hb as [|x r [H _] _ IH]; [reflexivity|]; cbn; rewrite H; exact IH). reflexivity. }
  rewrite E. pose proof (reportable_nodup _ _ _ _ _ Hr Hl) as Hn.
  assert (Hn' : NoDup (map t_name l')) by (eapply Permutation_NoDup; [apply Permutation_map; exact Hp|assumption]).
  assert (Hs' : forall t u, In t l' -> In u l' -> sanitize (t_name t) = sanitize (t_name u) -> t_name t = t_name u).
  { intros t u Ht Hu. apply Hs; eapply Permutation_in; [apply Permutation_sym; exact Hp|assumption|apply Permutation_sym; exact Hp|assumption]. }
  clear -Hn' Hs'. induction l' as [|t r IH]; [constructor|]. cbn in *. inversion Hn' as [|? ? N1 N2]; subst. constructor; [|apply IH; [assumption|intros; apply Hs'; auto]].
  intros Hin. apply in_map_iff in Hin as (u & E & Hu). apply N1. rewrite <- (Hs' u t (or_intror Hu) (or_introl eq_refl) E). apply in_map. assumption.
Qed.
Definition xsum1 (n : string) : telemetry := pt n (VSum fone) false (Some []) 1.
Theorem C49_refuted : exists (ops : list pop) (a : aggr) (bs : list bool) (l : list telemetry) (ls : list pline),
  pa_run ops (pa_new 10) = Some (a, bs) /\ pa_reportable a = Some l /\ write_lines (fun _ => "1") [] [] l = Some ls /\
  type_names ls = ["a_b"; "a_b"].
Proof. do 5 eexists. split; [exact (eq_refl (pa_run [PInsert (xsum1 "a.b"); PInsert (xsum1 "a_b")] (pa_new 10)))|]. split; [reflexivity|]. split; reflexivity. Qed.
Example C49_example :
  option_map (fun r => match pa_reportable (fst r) with Some l => write_text (fun _ => "1") (fun _ => "n") [("dc", "x")] l | None => None end)
    (pa_run [PInsert (pt "a.b" (VSum fone) false (Some [("h", "v")]) 1); PInsert (pt "c" (VSet fone) false None 1); PInsert (xsum1 "c")] (pa_new 10)) =
  Some (Some ("# TYPE a_b counter" ++ nl ++ "a_b{h=" ++ quote ++ "v" ++ quote ++ ", dc=" ++ quote ++ "x" ++ quote ++ "} 1" ++ nl ++
              "# TYPE c gauge" ++ nl ++ "c{dc=" ++ quote ++ "x" ++ quote ++ "} 1" ++ nl)%string).
Proof. reflexivity. Qed.

(** ** C47 *)
(** each histogram's block: one line per bin with the total of the bins up to it, then the sum and the count *)
Theorem C47_cumulative : forall (Q : QLib) (show_f : f64 -> string) (cap : N) (ops : list pop) (a : aggr) (bs : list bool) (l l' : list telemetry) (default : tagmap) (ls : list pline) (t : telemetry) (bins : list (bound * N)),
  pa_run ops (pa_new cap) = Some (a, bs) -> pa_reportable a = Some l -> Permutation l l' -> write_lines show_f default [] l' = Some ls ->
  In t l -> t_bins t = Some bins ->
  let name := sanitize (t_name t) in
  let tags := tag_iter (t_tags t) default in
  exists l1 l2 cums,
    ls = l1 ++ [PType name "histogram"] ++
         map (fun p => PSample name (Some ("le", match fst p with BFinite x => show_f x | BPosInf => "+Inf" end)) tags (QN (snd p))) (combine (map fst bins) cums) ++
         [PSample (name ++ "_sum")%string None tags (QF (match t_samples_sum t with Some s => s | None => fzero end));
          PSample (name ++ "_count")%string None tags (QF (fofZ (Z.of_N (t_count t))))] ++ l2 /\
    List.length cums = List.length bins /\ Sorted N.le cums /\
    (forall i, i < List.length bins -> nth i cums 0%N = sumN (firstn (S i) (map snd bins))) /\
    (t_override_count t = None -> last cums 0%N = t_count t).
Proof.
  intros Q show_f cap ops a bs l l' default ls t bins Hr Hl Hp Hw Ht Hb name tags. pose proof (reportable_nodup _ _ _ _ _ Hr Hl) as Hn.
  assert (Hn' : NoDup (map t_name l')) by (eapply Permutation_NoDup; [apply Permutation_map; exact Hp|assumption]).
  destruct (write_lines_blocks show_f default l' [] ls Hn' ltac:(intros n []) Hw) as (blocks & -> & Hf).
  apply (Permutation_in _ Hp) in Ht. apply in_split in Ht as (m1 & m2 & ->). apply Forall2_app_inv_l in Hf as (b1 & b2 & _ & Hf & ->). inversion Hf as [|? b ? b2' [_ (seen & seen' & Hb1 & Hs)] _]; subst.
  exists (List.concat b1), (List.concat b2'), (cumulate 0 (map snd bins)). rewrite concat_app. cbn [List.concat].
  split; [|split; [|split; [apply cumulate_sorted|split]]].
  - f_equal. unfold write_one in Hb1. rewrite Hs in Hb1. unfold t_bins, t_kind in *. destruct (t_value t) as [x|x|h|c s] eqn:Ev; try discriminate. cbn [value_kind value_bins] in *. injection Hb as <-.
    injection Hb1 as _ <-. rewrite bucket_lines_eq. unfold totals. cbn [List.app]. f_equal. rewrite <- app_assoc. reflexivity.
  - rewrite cumulate_length, map_length. reflexivity.
  - intros i Hi. rewrite cumulate_nth by (rewrite map_length; assumption). lia.
  - intros Ho. rewrite cumulate_last. unfold t_bins, t_count in *. rewrite Ho. destruct (t_value t); try discriminate. cbn in Hb. injection Hb as <-. cbn. rewrite h_bins_total. lia.
Qed.
(** a histogram with two samples between its bounds *)
Definition xhist_t : telemetry := pt "h" (VHist (mkXHist [fofZ 1; fofZ 10] [1; 2; 4]%N (Some (fofZ 9)))) false (Some []) 1.
Example C47_example :
  option_map (fun r => match pa_reportable (fst r) with Some l => write_lines (fun _ => "b") [] [] l | None => None end) (pa_run [PInsert xhist_t] (pa_new 10)) =
  Some (Some [PType "h" "histogram"; PSample "h" (Some ("le", "b")) [] (QN 1); PSample "h" (Some ("le", "b")) [] (QN 3); PSample "h" (Some ("le", "+Inf")) [] (QN 7);
              PSample "h_sum" None [] (QF (fofZ 9)); PSample "h_count" None [] (QF (fofZ 7))]).
Proof. reflexivity. Qed.

(** ** C70 *)
Lemma slen_app (a b : string) : String.length (a ++ b)%string = String.length a + String.length b.
Proof. induction a as [|c a IH]; cbn; auto. Qed.
Lemma suffix_longer (s : string) c r : s <> (s ++ String c r)%string.
Proof. intros E. apply (f_equal String.length) in E. rewrite slen_app in E. cbn in E. lia. Qed.
(** no bucket of any exposition is named as the text format asks for *)
Theorem C70_refuted : forall (Q : QLib) (show_f : f64 -> string) (cap : N) (ops : list pop) (a : aggr) (bs : list bool) (l l' : list telemetry) (default : tagmap) (ls : list pline) (name : string) (v : string) (tags : tagmap) (x : pnum),
  pa_run ops (pa_new cap) = Some (a, bs) -> pa_reportable a = Some l -> Permutation l l' -> write_lines show_f default [] l' = Some ls ->
  In (PSample name (Some ("le", v)) tags x) ls -> exists t, In t l /\ t_kind t = MHistogram /\ name = sanitize (t_name t) /\ name <> (sanitize (t_name t) ++ "_bucket")%string.
Proof.
  intros Q show_f cap ops a bs l l' default ls name v tags x Hr Hl Hp Hw Hin. pose proof (reportable_nodup _ _ _ _ _ Hr Hl) as Hn.
  assert (Hn' : NoDup (map t_name l')) by (eapply Permutation_NoDup; [apply Permutation_map; exact Hp|assumption]).
  destruct (write_lines_blocks show_f default l' [] ls Hn' ltac:(intros n []) Hw) as (blocks & -> & Hf).
  apply in_concat in Hin as (b & Hb & Hin). apply in_split in Hb as (b1 & b2 & ->). apply Forall2_app_inv_r in Hf as (m1 & m2 & _ & Hf & ->). inversion Hf as [|t ? m2' ? [_ (seen & seen' & Hb1 & Hs)] _]; subst.
  exists t. split; [apply (Permutation_in _ (Permutation_sym Hp)), in_or_app; right; left; reflexivity|].
  unfold write_one in Hb1. rewrite Hs in Hb1. unfold t_kind, t_sum, t_set, t_bins in *. destruct (t_value t) as [y|y|h|c s]; cbn [value_kind value_sum value_set value_bins] in *.
  - injection Hb1 as _ <-. destruct Hin as [H|[H|[]]]; discriminate.
  - injection Hb1 as _ <-. destruct Hin as [H|[H|[]]]; discriminate.
  - split; [reflexivity|]. injection Hb1 as _ <-. destruct Hin as [H|Hin]; [discriminate|]. apply in_app_or in Hin as [Hin|Hin]; [|destruct Hin as [H|[H|[]]]; discriminate].
    pose proof (bucket_lines_samples show_f (sanitize (t_name t)) (tag_iter (t_tags t) default) (h_bins h) 0) as F. rewrite Forall_forall in F. apply F in Hin as [_ Hin]. split; [exact Hin|]. cbn in Hin. rewrite Hin. apply suffix_longer.
  - destruct (quantile_lines _ _ _ _ _) as [q|] eqn:Eq; [|discriminate]. injection Hb1 as _ <-. destruct Hin as [H|Hin]; [discriminate|]. apply in_app_or in Hin as [Hin|Hin]; [|destruct Hin as [H|[H|[]]]; discriminate].
    exfalso. clear -Eq Hin. revert q Eq Hin. generalize quantiles as qs. induction qs as [|q0 qs IH]; intros q Eq Hin; cbn [quantile_lines] in Eq; [injection Eq as <-; contradiction|].
    destruct (t_query t q0); [|discriminate]. destruct (quantile_lines _ _ _ _ qs) as [q'|]; [|discriminate]. injection Eq as <-. destruct Hin as [H|H]; [discriminate|eapply IH; [reflexivity|exact H]].
Qed.

(** ** C68 *)
(** the totals of a summary count one sample per point, its largest *)
Definition xq (vs : list Z) (ts : Z) : telemetry := pt "s" (VQuant (map fofZ vs) (fofZ (fold_right Z.add 0%Z vs))) false (Some []) ts.
Definition xtotals (ops : list pop) : option (list (N * option f64)) :=
  match pa_run ops (pa_new 10) with
  | Some (a, _) => option_map (map (fun t => (t_count t, t_samples_sum t))) (pa_reportable a)
  | None => None
  end.
Theorem C68_refuted : exists t : telemetry, t_count t = 3%N /\ t_samples_sum t = Some (fofZ 6) /\ xtotals [PInsert t] = Some [(1%N, Some (fofZ 3))].
Proof. exists (xq [3; 2; 1]%Z 5). repeat split; reflexivity. Qed.
(** Missing: points with more than one sample *)
Theorem C68_count_partial : forall (Q : QLib) (cap : N) (ops : list pop) (a : aggr) (bs : list bool) (n : string) (c : N) (s : f64) (k : N) (s0 : telemetry) (r : list telemetry),
  (1 <= cap)%N -> pa_run ops (pa_new cap) = Some (a, bs) -> alookup seqb n (pa_data a) = Some (AWin c s k (s0 :: r)) ->
  (forall t, In t (inserted ops) -> t_count t = 1%N) -> (N.of_nat (List.length (inserted ops)) < 18446744073709551615)%N ->
  exists t, a_report (AWin c s k (s0 :: r)) = Some (Some t) /\ t_count t = sumN (map t_count (of_metric n MSummarize (inserted ops))).
Proof.
  intros Q cap ops a bs n c s k s0 r Hc Hr Hl H1 Hlt. pose proof (run_lane_ok cap n _ _ _ Hr) as H. rewrite Hl in H. destruct H as [_ (_ & H2 & _ & _ & H5 & H6 & _)].
  inversion H2 as [|? ? [Hn Hk] H3]; subst n. destruct (report_win c s k s0 r) as (t & Et & _ & _ & _ & _ & Ec & _).
  - apply fold_add_kind; [assumption|]. eapply Forall_impl; [|exact H3]. intros u [_ Hu]. exact Hu.
  - exists t. split; [exact Et|]. rewrite Ec.
    assert (H5' : k = N.of_nat (List.length (of_metric (t_name s0) MSummarize (inserted ops)))).
    { destruct H6 as (v & vs & H6 & _). apply Forall2_length_N in H6. rewrite H5, N.mod_small; [lia|].
      pose proof (filter_le (fun t => andb (seqb (t_name t) (t_name s0)) (meth_eqb (t_kind t) MSummarize)) (inserted ops)). unfold of_metric in *. lia. }
    rewrite H5'.
    + set (pts := of_metric _ _ _). assert (Hp : forall t, In t pts -> t_count t = 1%N) by (intros u Hu; apply H1; apply filter_In in Hu; apply Hu).
      clearbody pts. clear -Hp. induction pts as [|p l IH]; [reflexivity|]. cbn [map List.length]. unfold sumN in *. cbn [fold_right]. rewrite <- IH by (intros; apply Hp; right; assumption). rewrite (Hp p) by (left; reflexivity). lia.
Qed.
(** the window of a run with three seconds and capacity two *)
Definition xwin (r : option (aggr * list bool)) : option (list (string * (N * f64 * list (Z * list f64)))) :=
  match r with
  | Some (a, _) => Some (flat_map (fun kv => match snd kv with AWin _ s k l => [(fst kv, (k, s, map (fun t => (t_timestamp t, t_samples t)) l))] | APerp _ => [] end) (pa_data a))
  | None => None
  end.
Example C44_example : xwin (pa_run (map PInsert [xq [1]%Z 10; xq [2]%Z 30; xq [3]%Z 20; xq [4]%Z 30; xq [5]%Z 10]) (pa_new 2)) =
  Some [("s", (5%N, fofZ 15, [(20%Z, [fofZ 3]); (30%Z, [fofZ 2; fofZ 4])]))].
Proof. reflexivity. Qed.
Example C44_example_purge : xwin (pa_run (map PInsert [xq [1]%Z 10; xq [2]%Z 30] ++ [PPurge 15]) (pa_new 10)) = Some [("s", (2%N, fofZ 3, [(10%Z, [fofZ 1])]))].
Proof. reflexivity. Qed.
Example C44_example_count : ((N.of_nat 5 - 1) mod (2 ^ 64 - 2) + 1)%N = 5%N /\
  option_map (fun r => (pa_purged 15 (fst r), held_samples (fst r))) (pa_run (map PInsert [xq [1]%Z 10; xq [2]%Z 30]) (pa_new 10)) = Some (1, 2).
Proof. split; reflexivity. Qed.
Example C49_example_summary :
  option_map (fun r => match pa_reportable (fst r) with Some l => option_map (map (fun p => match p with PType n _ => n | PSample n _ _ _ => n end)) (write_lines (fun _ => "b") [] [] l) | None => None end)
    (pa_run [PInsert (xq [7]%Z 10); PInsert (xsum1 "a")] (pa_new 10)) =
  Some (Some (repeat "s" 10 ++ ["s_sum"; "s_count"; "a"; "a"])).
Proof. reflexivity. Qed.
(** a purge empties the only window and its metric is left out *)
Example C49_example_empty :
  option_map (fun r => option_map (map t_name) (pa_reportable (fst r))) (pa_run [PInsert (xq [7]%Z 1000); PInsert (xsum1 "a"); PPurge 10] (pa_new 10)) =
  Some (Some ["a"]).
Proof. reflexivity. Qed.
Example C45_example : option_map snd (pa_run [PInsert (xsum1 "a"); PInsert (xp "a" 3); PInsert (xp "b" 3); PPurge 5; PInsert (xsum1 "a"); PInsert (xq [1]%Z 3); PInsert (xsum1 "s")] (pa_new 2)) =
  Some [true; false; true; true; true; false].
Proof. reflexivity. Qed.

(** ** C69 *)
Definition no_char (c : ascii) (s : string) : Prop := ~ In c (chars s).
Definition plain_tags (tags : tagmap) : Prop := Forall (fun p => no_char "="%char (fst p) /\ no_char (Ascii.ascii_of_nat 34) (snd p)) tags.
Lemma cut_at c a : forall b x y, no_char c a -> no_char c b -> (a ++ String c x = b ++ String c y)%string -> a = b /\ x = y.
Proof.
  unfold no_char. induction a as [|d a IH]; intros [|e b] x y Ha Hb E; cbn in *.
  - injection E as <-. auto.
  - injection E as -> _. exfalso. apply Hb. left; reflexivity.
  - injection E as <- _. exfalso. apply Ha. left; reflexivity.
  - injection E as <- E. destruct (IH b x y) as [-> ->]; auto.
Qed.
Lemma concat_texts l : String.concat "" l = texts l.
Proof. induction l as [|x [|y l] IH]; [reflexivity|cbn; rewrite sapp_nil; reflexivity|]. change (String.concat "" (x :: y :: l)) with (x ++ "" ++ String.concat "" (y :: l))%string. rewrite IH. reflexivity. Qed.
Definition tags_tail (r : tagmap) : string := (texts (map (fun p => ", " ++ kv (fst p) (snd p))%string r) ++ "}")%string.
Lemma kv_cut k v k' v' x y : no_char "="%char k -> no_char "="%char k' -> no_char (Ascii.ascii_of_nat 34) v -> no_char (Ascii.ascii_of_nat 34) v' ->
  (kv k v ++ x = kv k' v' ++ y)%string -> k = k' /\ v = v' /\ x = y.
Proof.
  intros H1 H2 H3 H4 E. unfold kv, quote in E. cbn [String.append] in E. rewrite !sapp_assoc in E. cbn [String.append] in E. repeat (rewrite !sapp_assoc in E; cbn [String.append] in E).
  apply cut_at in E as [-> E]; [|assumption|assumption]. injection E as E. repeat (rewrite !sapp_assoc in E; cbn [String.append] in E). apply cut_at in E as [-> E]; auto.
Qed.
Lemma tags_tail_inj r : forall r', plain_tags r -> plain_tags r' -> tags_tail r = tags_tail r' -> r = r'.
Proof.
  induction r as [|[k v] r IH]; intros [|[k' v'] r'] H H' E; [reflexivity|discriminate|discriminate|]. inversion H as [|? ? [P1 P2] P3]; subst. inversion H' as [|? ? [P1' P2'] P3']; subst. cbn [fst snd] in *.
  unfold tags_tail in E. cbn [map fst snd] in E. rewrite !texts_cons, !sapp_assoc in E. cbn [String.append] in E. injection E as E. fold (tags_tail r) (tags_tail r') in E.
  apply kv_cut in E as (-> & -> & E); auto. f_equal. auto.
Qed.
(** Missing: keys with an equals sign, values with a quotation mark *)
Theorem C69_tags_readable_partial : forall a b : tagmap, plain_tags a -> plain_tags b -> write_tags a = write_tags b -> a = b.
Proof.
  intros [|[k v] a] [|[k' v'] b] Ha Hb E; [reflexivity|discriminate|discriminate|]. inversion Ha as [|? ? [P1 P2] P3]; subst. inversion Hb as [|? ? [P1' P2'] P3']; subst. cbn [fst snd] in *.
  unfold write_tags in E. rewrite !concat_texts in E. cbn [String.append] in E. injection E as E. fold (tags_tail a) (tags_tail b) in E. apply kv_cut in E as (-> & -> & E); auto. f_equal. apply tags_tail_inj; assumption.
Qed.
Theorem C69_refuted : exists a b : tagmap, a <> b /\ write_tags a = write_tags b.
Proof. exists [("k", ("x" ++ quote ++ ", j=" ++ quote ++ "y")%string)], [("k", "x"); ("j", "y")]. split; [discriminate|reflexivity]. Qed.
Example C69_example : plain_tags [("host", "a,b}"); ("dc", "x=y")].
Proof. apply Forall_cons; [|apply Forall_cons; [|apply Forall_nil]]; split; unfold no_char; cbn; intuition discriminate. Qed.

(** ** C66, prometheus part *)
Theorem C66_prometheus_age_threshold_partial : forall (Q : QLib) (now : Z) (t : telemetry) (a : aggr) (age : N),
  (Z.of_N age <= i64_max)%Z -> (i64_min < t_timestamp t - now <= i64_max)%Z ->
  pr_deliver (Some age) now t a = if (Z.abs (t_timestamp t - now) <=? Z.of_N age)%Z then option_map fst (pa_insert a t) else Some a.
Proof. intros Q now t a age Hm Hd. unfold pr_deliver. rewrite abs64_id by assumption. unfold as_i64, i64_max, i64_min in *. rewrite wrap64_id by lia. reflexivity. Qed.
Theorem C66_prometheus_no_threshold : forall (Q : QLib) (now now' : Z) (t : telemetry) (a : aggr),
  pr_deliver None now t a = pr_deliver None now' t a /\ pr_deliver None now t a = option_map fst (pa_insert a t).
Proof. split; reflexivity. Qed.

Print Assumptions C44_window.
Print Assumptions C44_totals_and_bounds.
Print Assumptions C44_count.
Print Assumptions C44_purge_counts.
Print Assumptions C44_purge.
Print Assumptions C45_accepts.
Print Assumptions C45_content.
Print Assumptions C45_count.
Print Assumptions C45_kind_stable.
Print Assumptions C46_refuted.
Print Assumptions C47_cumulative.
Print Assumptions C48_sanitized.
Print Assumptions C48_refuted.
Print Assumptions C49_blocks.
Print Assumptions C49_content.
Print Assumptions C49_all_reported.
Print Assumptions C49_one_type_line_partial.
Print Assumptions C49_refuted.
Print Assumptions C66_prometheus_age_threshold_partial.
Print Assumptions C66_prometheus_no_threshold.
Print Assumptions C68_refuted.
Print Assumptions C68_count_partial.
Print Assumptions C69_tags_readable_partial.
Print Assumptions C69_refuted.
Print Assumptions C70_refuted.
