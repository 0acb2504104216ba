(** * Properties C06-C13: merging, building, tags, bins. *)
From Verif Require Import Base TelemetryModel TelemetrySpec TelemetryProofs QExample.
Open Scope string_scope.

(** A small point for the examples. *)
Definition pt `{Q : QLib} (n : string) (v : value) (p : bool) (tg : option tagmap) (ts : Z) : telemetry :=
  mkTelemetry n v p tg ts None None.

(** ** C06 *)
Theorem C06_merge_kind : forall (Q : QLib) (l r : telemetry),
  t_kind (t_add l r) = t_kind r.
Proof. intros. exact (value_add_kind (t_value l) (t_value r)). Qed.

Theorem C06_merge_keeps_identity : forall (Q : QLib) (ts : list telemetry) (t0 : telemetry),
  t_name (fold_left t_add ts t0) = t_name t0 /\ t_tags (fold_left t_add ts t0) = t_tags t0 /\
  t_timestamp (fold_left t_add ts t0) = t_timestamp t0.
Proof. exact @fold_add_frame. Qed.

Theorem C06_merge_set_last : forall (Q : QLib) (ts : list telemetry) (t0 : telemetry) (xs : list f64),
  Forall2 (fun t x => t_set t = Some x) ts xs -> ts <> [] ->
  t_set (fold_left t_add ts t0) = Some (last xs fzero).
Proof. exact @fold_add_set. Qed.

Theorem C06_merge_sum_fold : forall (Q : QLib) (ts : list telemetry) (t0 : telemetry) (x0 : f64) (xs : list f64),
  t_sum t0 = Some x0 -> Forall2 (fun t x => t_sum t = Some x) ts xs ->
  t_sum (fold_left t_add ts t0) = Some (fold_left fadd xs x0).
Proof. exact @fold_add_sum. Qed.

Theorem C06_merge_samples_count : forall (Q : QLib) (k : method) (ts : list telemetry) (t0 : telemetry),
  k = MSummarize \/ k = MHistogram ->
  t_kind t0 = k -> Forall (fun t => t_kind t = k) ts ->
  value_count (t_value (fold_left t_add ts t0)) =
  (value_count (t_value t0) + sumN (map (fun t => value_count (t_value t)) ts))%N.
Proof. exact @fold_add_count. Qed.

(** the sum of samples of a summary grows by what is merged in, unless a histogram (C07) or an override *)
Theorem C06_merge_summary_sum : forall (Q : QLib) (l r : telemetry) (x y : f64),
  t_kind r = MSummarize -> t_override_sum l = None -> t_override_sum r = None ->
  t_samples_sum r = Some y ->
  ((t_set l = Some x \/ t_sum l = Some x) -> t_samples_sum (t_add l r) = Some (fadd y x))
  /\ (t_kind l = MSummarize -> t_samples_sum l = Some x -> t_samples_sum (t_add l r) = Some (fadd x y)).
Proof.
  intros Q [n [a|a|a|a b] p tg ts oc os] [n' [c|c|c|c d] p' tg' ts' oc' os'] x y; cbn; try discriminate; intros _ -> -> [= <-]; (split; [intros [H|H]|intros H]); try discriminate;
    try (injection H as <-); try (intros [= <-]); reflexivity.
Qed.
(** merging into a SUM adds everything the left operand amounts to *)
Theorem C06_merge_into_sum : forall (Q : QLib) (l r : telemetry) (x y : f64),
  t_sum r = Some y -> t_override_sum l = None -> (t_set l = Some x \/ t_sum l = Some x \/ t_samples_sum l = Some x) ->
  t_sum (t_add l r) = Some (fadd x y).
Proof.
  intros Q [n [a|a|a|a b] p tg ts oc os] [n' [c|c|c|c d] p' tg' ts' oc' os'] x y; cbn; try discriminate; intros [= <-] -> [H|[H|H]]; try discriminate; try (injection H as <-; reflexivity).
  unfold t_add; cbn. rewrite H. reflexivity.
Qed.
Example C06_ex_summary_sum : t_samples_sum (t_add (pt "a" (VSet (fofZ 2)) false None 1) (pt "a" (VQuant [fofZ 1] (fofZ 5)) false None 0)) = Some (fofZ 7).
Proof. vm_compute. reflexivity. Qed.

Example C06_ex_set : t_set (fold_left t_add [pt "a" (VSet (fofZ 2)) false None 1; pt "a" (VSet (fofZ 7)) true None 2]
  (pt "a" (VSum (fofZ 1)) false None 0)) = Some (fofZ 7).
Proof. reflexivity. Qed.
Example C06_ex_sum : t_sum (fold_left t_add [pt "a" (VSum (fofZ 2)) false None 1; pt "a" (VSum (fofZ 7)) true None 2]
  (pt "a" (VSum (fofZ 1)) false None 0)) = Some (fofZ 10).
Proof. vm_compute. reflexivity. Qed.
Example C06_ex_count : value_count (t_value (fold_left t_add
  [pt "a" (VQuant [fofZ 2; fofZ 3] (fofZ 5)) false None 1] (pt "a" (VQuant [fofZ 1] (fofZ 1)) false None 0))) = 3%N.
Proof. vm_compute. reflexivity. Qed.
Print Assumptions C06_merge_kind.
Print Assumptions C06_merge_keeps_identity.
Print Assumptions C06_merge_set_last.
Print Assumptions C06_merge_sum_fold.
Print Assumptions C06_merge_samples_count.

(** ** C07.  Full statement: for every pair with a sampling right operand the
    counts add up.  False: a HISTOGRAM merged with a SUMMARIZE is dropped. *)
Theorem C07_merge_keeps_samples_refuted : exists (Q : QLib) (l r : value),
  sampling r /\ value_count l <> 0%N /\
  value_count (value_add l r) <> (value_count l + value_count r)%N.
Proof.
  exists xQ, (@VHist xQ (mkXHist [fofZ 1] [1; 0]%N (Some (fofZ 1)))), (@VQuant xQ [fofZ 2] (fofZ 2)).
  split; [left; reflexivity|]. split; vm_compute; discriminate.
Qed.

(** In every implementation of the library the left histogram is dropped. *)
Theorem C07_histogram_into_summary_dropped : forall (Q : QLib) h c s,
  value_count (value_add (VHist h) (VQuant c s)) = value_count (VQuant c s).
Proof. exact @hist_into_summary_loses. Qed.

(** What holds: every other combination, provided the summary hands out all the
    samples it counts when it is converted into a histogram (the library
    compresses, so this is a hypothesis). *)
Theorem C07_merge_keeps_samples_partial : forall (Q : QLib) (l r : value),
  sampling r ->
  (value_kind l = MHistogram -> value_kind r = MHistogram) ->
  (forall c s, l = VQuant c s -> value_kind r = MHistogram ->
     N.of_nat (List.length (c_values c)) = c_count c) ->
  value_count (value_add l r) = (value_count l + value_count r)%N.
Proof. exact @value_add_count_partial. Qed.
Example C07_ex : value_count (value_add (VQuant [fofZ 1; fofZ 20] (fofZ 21))
  (VHist (mkXHist [fofZ 10] [1; 1]%N (Some (fofZ 30))))) = 4%N.
Proof. vm_compute. reflexivity. Qed.
Print Assumptions C07_merge_keeps_samples_refuted.
Print Assumptions C07_histogram_into_summary_dropped.
Print Assumptions C07_merge_keeps_samples_partial.

(** ** C08.  Full statement: persist l || persist r -> persist (l += r).  False. *)
Theorem C08_merge_persist_refuted : forall Q : QLib, exists l r : telemetry,
  (t_persist l = true \/ t_persist r = true) /\ t_persist (t_add l r) = false.
Proof.
  intros Q. exists (pt "g" (VSet fone) true None 0), (pt "g" (VSet fone) false None 0).
  split; [left; reflexivity|reflexivity].
Qed.
(** What holds: persistence is that of the right operand. *)
Theorem C08_merge_persist_partial : forall (Q : QLib) (l r : telemetry),
  t_persist (t_add l r) = t_persist r.
Proof. reflexivity. Qed.
Print Assumptions C08_merge_persist_refuted.
Print Assumptions C08_merge_persist_partial.

(** ** C09 *)
Theorem C09_harden_succeeds_iff_valid : forall (Q : QLib) (now : Z) (s : soft),
  (exists t, harden now s = HOk t) <-> valid_builder s /\ ~ bounds_refused s.
Proof. exact @harden_ok_iff. Qed.

(** Every outcome of [harden]: what a successful one contains, that an error is
    returned only for an invalid builder, and that a panic means the histogram
    library refused the bounds of an otherwise valid builder. *)
Theorem C09_harden_outcome : forall (Q : QLib) (now : Z) (s : soft),
  match harden now s with
  | HOk t => valid_builder s /\ ~ bounds_refused s /\
             Some (t_name t) = s_name s /\ t_tags t = s_tags s /\
             t_timestamp t = match s_timestamp s with Some x => x | None => now end /\
             t_persist t = match s_persist s with Some p => p | None => false end /\
             (forall v, s_thawed s = Some v -> t_value t = v) /\
             (forall x, s_initial s = Some x -> t_kind t = kind_of_builder s /\
                (t_kind t = MSet -> t_set t = Some x) /\ (t_kind t = MSum -> t_sum t = Some x) /\
                value_count (t_value t) = 1%N)
  | HErr _ => ~ valid_builder s
  | HPanic => valid_builder s /\ bounds_refused s
  end.
Proof. exact @harden_cases. Qed.

Theorem C09_thaw_harden : forall (Q : QLib) (now : Z) (t : telemetry),
  harden now (thaw t) = HOk (plain t).
Proof. exact @harden_thaw. Qed.

Example C09_ex_ok : harden 9 (b_kind MSum (b_value (fofZ 3) (b_name "x" soft_new))) =
  HOk (pt "x" (VSum (fofZ 3)) false None 9).
Proof. reflexivity. Qed.
Example C09_ex_err : harden 9 (b_error (fratio 1 100) (b_kind MSum (b_value (fofZ 3) (b_name "x" soft_new)))) =
  HErr CannotSetError.
Proof. reflexivity. Qed.
(** an empty list of bounds reaches the panic *)
Example C09_ex_panic : option_map (harden 9) (b_bounds [] (b_kind MHistogram (b_value (fofZ 3) (b_name "x" soft_new)))) =
  Some HPanic.
Proof. reflexivity. Qed.
(** the error names a rule the builder breaks *)
Definition breaks `{Q : QLib} (s : soft) (e : terror) : Prop :=
  match e with
  | CannotHaveTwoValues => s_initial s <> None /\ s_thawed s <> None
  | NoValue => s_initial s = None /\ s_thawed s = None
  | NoName => s_name s = None
  | CannotSetBounds => s_bounds s <> None /\ kind_of_builder s <> MHistogram
  | CannotSetError => s_error s <> None /\ kind_of_builder s <> MSummarize
  | SummarizeErrorTooLarge => kind_of_builder s = MSummarize /\ exists x, s_error s = Some x /\ fleb fone x = true
  end.
Theorem C09_error_names_fault : forall (Q : QLib) (now : Z) (s : soft) (e : terror), harden now s = HErr e -> breaks s e.
Proof.
  intros Q now s e. unfold harden, breaks, kind_of_builder.
  destruct (s_initial s) as [iv|] eqn:Ei, (s_thawed s) as [tv|] eqn:Et; [intros [= <-]; split; discriminate| | |intros [= <-]; split; reflexivity];
    (destruct (s_name s) eqn:En; [|intros [= <-]; reflexivity]); destruct (s_kind s) as [[| | |]|] eqn:Ek; destruct (s_error s) as [x|] eqn:Ee; destruct (s_bounds s) as [b|] eqn:Eb;
    try discriminate; try (intros [= <-]; split; discriminate);
    try (destruct (fleb fone x) eqn:Ef; [intros [= <-]; split; [reflexivity|exists x; split; [reflexivity|exact Ef]]|discriminate]);
    try (destruct (h_new _); discriminate).
Qed.
(** the bounds of a histogram are those given, in ascending order; nothing else changes *)
Lemma fleb_total x y : is_nan x = false -> is_nan y = false -> fleb x y = false -> fleb y x = true.
Proof.
  unfold fleb, SFleb, SFcompare. destruct x as [sx|sx| |sx mx ex], y as [sy|sy| |sy my ey]; try discriminate; intros _ _; destruct sx, sy; try reflexivity; try discriminate; rewrite (Z.compare_antisym ex ey);
    destruct (Z.compare ex ey); cbn; try reflexivity; try discriminate; replace (Pos.compare_cont Eq my mx) with (CompOpp (Pos.compare_cont Eq mx my)) by apply (Pos.compare_cont_antisym mx my Eq); cbn; destruct (Pos.compare_cont Eq mx my); cbn; try reflexivity; discriminate.
Qed.
Lemma finsert_perm x l : Permutation (x :: l) (finsert x l).
Proof. induction l as [|y l IH]; cbn; [reflexivity|]. destruct (fleb x y); [reflexivity|]. rewrite perm_swap. constructor. exact IH. Qed.
Lemma fsort_perm l : Permutation l (fsort l).
Proof. induction l as [|x l IH]; cbn; [reflexivity|]. etransitivity; [constructor; exact IH|apply finsert_perm]. Qed.
Lemma finsert_sorted x l : is_nan x = false -> Forall (fun y => is_nan y = false) l -> Sorted (fun a b => fleb a b = true) l -> Sorted (fun a b => fleb a b = true) (finsert x l).
Proof.
  intros Hx. induction l as [|y l IH]; intros Hl Hs; cbn; [repeat constructor|]. inversion Hl as [|? ? Hy Hl']; inversion Hs as [|? ? Hs' Hd]; subst. destruct (fleb x y) eqn:E.
  - constructor; [exact Hs|constructor; exact E].
  - constructor; [apply IH; assumption|]. pose proof (fleb_total x y Hx Hy E) as E'. destruct l as [|z l]; cbn; [constructor; exact E'|]. destruct (fleb x z); constructor; [exact E'|]. inversion Hd; assumption.
Qed.
Lemma fsort_sorted l : Forall (fun y => is_nan y = false) l -> Sorted (fun a b => fleb a b = true) (fsort l).
Proof.
  induction 1 as [|x l Hx Hl IH]; cbn; [constructor|]. apply finsert_sorted; [exact Hx| |exact IH]. rewrite Forall_forall in *. intros y Hy. apply Hl. eapply Permutation_in; [apply Permutation_sym, fsort_perm|exact Hy].
Qed.
Theorem C09_bounds_sorted : forall (Q : QLib) bs (s s' : soft), b_bounds bs s = Some s' ->
  (exists bs', s_bounds s' = Some bs' /\ Permutation bs bs' /\ Sorted (fun a b => fleb a b = true) bs') /\
  s_name s' = s_name s /\ s_initial s' = s_initial s /\ s_thawed s' = s_thawed s /\ s_kind s' = s_kind s /\ s_error s' = s_error s /\ s_timestamp s' = s_timestamp s /\
  s_tags s' = s_tags s /\ s_persist s' = s_persist s.
Proof.
  intros Q bs s s' E. unfold b_bounds in E. destruct (existsb is_nan bs) eqn:En; cbn [andb] in E.
  - destruct (2 <=? List.length bs)%nat eqn:El; [discriminate|]. injection E as <-. cbn. split; [|repeat split]. exists (fsort bs). split; [reflexivity|]. split; [apply fsort_perm|].
    apply Nat.leb_gt in El. destruct bs as [|x [|y bs]]; cbn in *; [constructor|repeat constructor|lia].
  - injection E as <-. cbn. split; [|repeat split]. exists (fsort bs). split; [reflexivity|]. split; [apply fsort_perm|]. apply fsort_sorted. rewrite Forall_forall. intros y Hy.
    destruct (is_nan y) eqn:Ey; [|reflexivity]. assert (existsb is_nan bs = true) by (apply existsb_exists; exists y; split; assumption). congruence.
Qed.
Example C09_ex_bounds : option_map s_bounds (b_bounds [fofZ 3; fofZ 1; fofZ 2; fofZ 1] soft_new) = Some (Some [fofZ 1; fofZ 1; fofZ 2; fofZ 3]).
Proof. vm_compute. reflexivity. Qed.
Print Assumptions C09_error_names_fault.
Print Assumptions C09_bounds_sorted.
Print Assumptions C09_harden_succeeds_iff_valid.
Print Assumptions C09_harden_outcome.
Print Assumptions C09_thaw_harden.

(** ** C10 *)
Theorem C10_tag_iter_exact : forall own defaults k v,
  otm_ok own -> tm_ok defaults ->
  (In (k, v) (tag_iter own defaults) <-> layered own defaults k v).
Proof. exact tag_iter_layered. Qed.
Theorem C10_tag_iter_keys_once : forall own defaults,
  otm_ok own -> tm_ok defaults -> NoDup (map fst (tag_iter own defaults)).
Proof. exact tag_iter_NoDup. Qed.
Theorem C10_get_from_tags_agrees : forall own defaults k v,
  otm_ok own -> tm_ok defaults ->
  (get_from_tags k own defaults = Some v <-> layered own defaults k v).
Proof. exact get_from_tags_layered. Qed.
Example C10_ex_hyp : otm_ok (Some [("host", "a"); ("dc", "b")]) /\ tm_ok [("dc", "z"); ("env", "p")].
Proof. split; repeat constructor; cbn; intuition discriminate. Qed.
Example C10_ex : tag_iter (Some [("host", "a"); ("dc", "b")]) [("dc", "z"); ("env", "p")] =
  [("host", "a"); ("dc", "b"); ("env", "p")].
Proof. reflexivity. Qed.
Print Assumptions C10_tag_iter_exact.
Print Assumptions C10_tag_iter_keys_once.
Print Assumptions C10_get_from_tags_agrees.

(** ** C11 *)
Theorem C11_insert_tag : forall k v own, otm_ok own ->
  let (own', prev) := insert_tag k v own in
  otm_ok own' /\ prev = otag k own /\ otag k own' = Some v /\
  (forall k', k' <> k -> otag k' own' = otag k' own).
Proof. exact insert_tag_spec. Qed.
Theorem C11_remove_tag : forall k own, otm_ok own ->
  let (own', prev) := remove_tag k own in
  otm_ok own' /\ prev = otag k own /\ otag k own' = None /\
  (forall k', k' <> k -> otag k' own' = otag k' own).
Proof. exact remove_tag_spec. Qed.
Theorem C11_overlay_tags : forall m own, otm_ok own -> tm_ok m ->
  otm_ok (overlay_tags m own) /\
  (forall k, otag k (overlay_tags m own) =
             match tm_get k m with Some v => Some v | None => otag k own end).
Proof. exact overlay_tags_spec. Qed.
Example C11_ex : overlay_tags [("dc", "z"); ("env", "p")] (Some [("host", "a"); ("dc", "b")]) =
  Some [("host", "a"); ("dc", "z"); ("env", "p")].
Proof. reflexivity. Qed.
Print Assumptions C11_insert_tag.
Print Assumptions C11_remove_tag.
Print Assumptions C11_overlay_tags.

(** ** C12.  Full statement: same bin <-> same half-open interval of the width.
    False around zero, because the division truncates. *)
Theorem C12_bin_width_refuted : forall Q : QLib, exists (w : Z) (a b : telemetry),
  (0 < w)%Z /\ t_name a = t_name b /\ t_tags a = t_tags b /\
  within w a b = Eq /\ ~ same_interval w (t_timestamp a) (t_timestamp b).
Proof.
  intros Q. exists 10%Z, (pt "a" (VSet fone) false None (-9)), (pt "a" (VSet fone) false None 9).
  repeat split. intros (k & H1 & H2); cbn in *; lia.
Qed.
(** What holds for all timestamps from the epoch on. *)
Theorem C12_bin_width_partial : forall (Q : QLib) (w : Z) (a b : telemetry),
  (0 < w)%Z -> (0 <= t_timestamp a)%Z -> (0 <= t_timestamp b)%Z ->
  series_key a = series_key b ->
  (within w a b = Eq <-> same_interval w (t_timestamp a) (t_timestamp b)).
Proof.
  intros Q w a b Hw Ha Hb Hs. rewrite (within_series w a b Hs), Z.compare_eq_iff.
  apply tbin_same_nonneg; assumption.
Qed.
(** The exact bins for every integer timestamp: bin 0 is twice as wide. *)
Theorem C12_bins_exact : forall w ts k, (0 < w)%Z ->
  (tbin w ts = k <->
   (k = 0 /\ - w < ts < w) \/ (0 < k /\ k * w <= ts < (k + 1) * w) \/
   (k < 0 /\ (k - 1) * w < ts <= k * w))%Z.
Proof.
  intros w ts k Hw. destruct (Z.lt_trichotomy k 0) as [H|[->|H]].
  - rewrite (tbin_neg w ts k Hw H). lia.
  - rewrite (tbin_zero w ts Hw). lia.
  - rewrite (tbin_pos w ts k Hw H). lia.
Qed.
Example C12_ex : within 10 (pt "a" (VSet fone) false None 11) (pt "a" (VSum fone) true (Some []) 19) = Eq
  /\ within 10 (pt "a" (VSet fone) false None 19) (pt "a" (VSum fone) true None 20) = Lt.
Proof. split; reflexivity. Qed.
Print Assumptions C12_bin_width_refuted.
Print Assumptions C12_bin_width_partial.
Print Assumptions C12_bins_exact.

(** ** C13.  Full statement: an order whose equality is equality of the maps.
    False for absent maps (not transitive) ... *)
Theorem C13_tag_order_refuted : exists a b c : option tagmap,
  cmp_tagmap a b = Eq /\ cmp_tagmap b c = Eq /\ cmp_tagmap a c <> Eq.
Proof. exists (Some [("k", "1")]), None, (Some [("k", "2")]). repeat split; discriminate. Qed.
(** ... and for maps with the same content and another iteration order. *)
Theorem C13_tag_order_iteration_refuted : exists m m' : tagmap,
  tm_ok m /\ Permutation m m' /\ cmp_tagmap (Some m) (Some m') <> Eq.
Proof.
  exists [("a", "1"); ("b", "2")], [("b", "2"); ("a", "1")].
  split; [repeat constructor; cbn; intuition discriminate|]. split; [constructor|vm_compute; discriminate].
Qed.
(** What holds: on present maps it is a total order on the iterated pairs. *)
Theorem C13_tag_order_partial : forall a b c : tagmap,
  (cmp_tagmap (Some a) (Some b) = Eq <-> a = b) /\
  cmp_tagmap (Some b) (Some a) = CompOpp (cmp_tagmap (Some a) (Some b)) /\
  (cmp_tagmap (Some a) (Some b) = Lt -> cmp_tagmap (Some b) (Some c) = Lt ->
   cmp_tagmap (Some a) (Some c) = Lt).
Proof.
  intros a b c. split; [apply cmp_tagmap_eq|]. split; [apply cmp_tagmap_antisym|apply cmp_tagmap_trans].
Qed.
(** points are ordered by name, then time, then tags *)
Theorem C13_points_by_name_time_tags : forall (Q : QLib) (a b : telemetry),
  (scmp (t_name a) (t_name b) = Lt -> t_cmp a b = Lt) /\ (scmp (t_name a) (t_name b) = Gt -> t_cmp a b = Gt) /\
  (t_name a = t_name b -> (t_timestamp a < t_timestamp b)%Z -> t_cmp a b = Lt) /\ (t_name a = t_name b -> (t_timestamp a > t_timestamp b)%Z -> t_cmp a b = Gt) /\
  (t_name a = t_name b -> t_timestamp a = t_timestamp b -> t_cmp a b = cmp_tagmap (t_tags a) (t_tags b)).
Proof.
  intros Q a b. unfold t_cmp. split; [intros ->; reflexivity|]. split; [intros ->; reflexivity|].
  split; [|split]; intros ->; rewrite BaseFacts.scmp_refl; intros H; [rewrite (proj2 (Z.compare_lt_iff _ _)) by exact H|rewrite (proj2 (Z.compare_gt_iff _ _)) by lia|rewrite H, Z.compare_refl]; reflexivity.
Qed.
Print Assumptions C13_points_by_name_time_tags.
Example C13_ex : cmp_tagmap (Some [("a", "1")]) (Some [("a", "2")]) = Lt /\
                 cmp_tagmap (Some [("b", "0")]) (Some [("a", "1"); ("b", "2")]) = Lt.
Proof. split; reflexivity. Qed.
Print Assumptions C13_tag_order_refuted.
Print Assumptions C13_tag_order_iteration_refuted.
Print Assumptions C13_tag_order_partial.

(** ** C83 *)
Definition inserts `{Q : QLib} (xs : list f64) (t : telemetry) : option telemetry :=
  fold_left (fun acc x => match acc with Some t => t_insert x t | None => None end) xs (Some t).
Lemma inserts_cons `{Q : QLib} x xs t t' : t_insert x t = Some t' -> inserts (x :: xs) t = inserts xs t'.
Proof. intros E. unfold inserts. cbn. rewrite E. reflexivity. Qed.
(** insertions change the value only, by the point's aggregation *)
Theorem C83_inserts : forall (Q : QLib) (xs : list f64) (t : telemetry),
  t_override_sum t = None -> t_override_count t = None ->
  exists v, inserts xs t = Some (t_set_value v t) /\
  match t_value t with
  | VSet x => v = VSet (last xs x)
  | VSum x => v = VSum (fold_left fadd xs x)
  | VHist h => exists h', v = VHist h' /\ h' = fold_left h_insert xs h /\ h_count h' = (h_count h + N.of_nat (List.length xs))%N
  | VQuant c s => exists c', v = VQuant c' (fold_left fadd xs s) /\ c' = fold_left c_insert xs c /\ c_count c' = (c_count c + N.of_nat (List.length xs))%N
  end.
Proof.
  intros Q xs. induction xs as [|x xs IH]; intros t Hs Hc.
  - exists (t_value t). destruct t as [n v p tg ts oc os]. cbn in *. split; [reflexivity|]. destruct v; cbn; eauto; eexists; (split; [reflexivity|split; [reflexivity|lia]]).
  - destruct t as [n v p tg ts oc os]. cbn in Hs, Hc. subst oc os.
    destruct v as [a|a|h|c s]; (erewrite inserts_cons by reflexivity);
    match goal with |- context [inserts xs ?t'] => destruct (IH t' eq_refl eq_refl) as (v' & E & H) end; exists v'; (split; [exact E|]); cbn [t_value t_set_value] in H |- *.
    + rewrite H. f_equal. destruct xs as [|b xs]; [reflexivity|]. cbn [last]. destruct xs; [reflexivity|]. clear. revert f. induction xs; intros f; [reflexivity|]. cbn [last] in *. destruct xs; [reflexivity|apply IHxs; exact a0].
    + exact H.
    + destruct H as (h' & -> & E0 & E1). exists h'. split; [reflexivity|]. split; [exact E0|]. rewrite E1, h_insert_count. cbn [List.length]. lia.
    + destruct H as (c' & -> & E0 & E1). exists c'. split; [reflexivity|]. split; [exact E0|]. rewrite E1, c_insert_count. cbn [List.length]. lia.
Qed.
(** a point with an overridden count or sum refuses *)
Theorem C83_overridden : forall (Q : QLib) (x : f64) (t : telemetry),
  t_insert x t = None <-> t_override_sum t <> None \/ t_override_count t <> None.
Proof.
  intros Q x t. unfold t_insert. destruct (t_override_sum t), (t_override_count t); split; try tauto; try discriminate; intros; try (left; discriminate); try (right; discriminate).
Qed.
Example C83_ex : inserts [fofZ 2; fofZ 3] (pt "a" (VSum fone) false None 0) = Some (pt "a" (VSum (fofZ 6)) false None 0).
Proof. vm_compute. reflexivity. Qed.
Print Assumptions C06_merge_summary_sum.
Print Assumptions C06_merge_into_sum.
Print Assumptions C83_inserts.
Print Assumptions C83_overridden.

(** ** C113: a zeroed point changes nothing when it is merged in.  False of sets: it
    replaces what was there. *)
Theorem C113_zeroed_neutral_refuted : forall Q : QLib, exists l r : telemetry,
  t_is_zeroed r = true /\ t_kind l = t_kind r /\ t_set l = Some fone /\ t_set (t_add l r) = Some fzero.
Proof. intros Q. exists (pt "a" (VSet fone) false None 0), (pt "a" (VSet fzero) false None 0). repeat split. Qed.
Lemma fadd_zeroed x y : feqb y fzero = true -> is_nan x = false -> feqb (fadd x y) x = true.
Proof.
  assert (Hr : forall z, is_nan z = false -> feqb z z = true).
  { unfold feqb, SFeqb, SFcompare. intros [s|s| |s m e]; try discriminate; intros _; destruct s; try reflexivity; rewrite Z.compare_refl, Pos.compare_cont_refl; reflexivity. }
  intros Hy Hx. destruct y as [sy|sy| |sy my ey]; [|destruct sy; discriminate|discriminate|destruct sy; discriminate].
  destruct x as [sx|sx| |sx mx ex]; [destruct sx, sy; reflexivity|destruct sx; reflexivity|discriminate|]. exact (Hr (S754_finite sx mx ex) Logic.eq_refl).
Qed.
(** What holds: a zeroed sum leaves the sum, a zeroed summary or histogram the number of
    samples. *)
Theorem C113_zeroed_neutral_partial : forall (Q : QLib) (l r : telemetry), t_is_zeroed r = true -> t_kind l = t_kind r ->
  (forall x, t_sum l = Some x -> is_nan x = false -> exists y, t_sum (t_add l r) = Some y /\ feqb y x = true) /\
  (sampling (t_value l) -> value_count (t_value (t_add l r)) = value_count (t_value l)).
Proof.
  intros Q [n v p tg ts oc os] [n' v' p' tg' ts' oc' os']. unfold t_is_zeroed, t_kind, t_sum, t_add, sampling. cbn [t_value t_name t_persist t_tags t_timestamp t_override_count t_override_sum].
  destruct v as [x|x|h|c s], v' as [x'|x'|h'|c' s']; cbn; intros Hz Hk; try discriminate; (split; [intros y E Hn; try discriminate|intros [Hs|Hs]; try discriminate]).
  - injection E as <-. eexists. split; [reflexivity|]. apply fadd_zeroed; assumption.
  - apply N.eqb_eq in Hz. rewrite h_merge_count, Hz, N.add_0_r. reflexivity.
  - apply N.eqb_eq in Hz. rewrite c_merge_count, Hz, N.add_0_r. reflexivity.
Qed.
(** zeroed is what holds no sample, or nothing but zero *)
Theorem C113_zeroed : forall (Q : QLib) (t : telemetry),
  t_is_zeroed t = true <-> (sampling (t_value t) /\ value_count (t_value t) = 0%N) \/ (exists x, (t_sum t = Some x \/ t_set t = Some x) /\ feqb x fzero = true).
Proof.
  intros Q [n v p tg ts oc os]. unfold t_is_zeroed, t_sum, t_set, sampling. cbn [t_value]. destruct v as [x|x|h|c s]; cbn; rewrite ?N.eqb_eq; split.
  - intros H. right. exists x. auto.
  - intros [[[H|H] _]|(y & [H|H] & E)]; try discriminate. injection H as <-. exact E.
  - intros H. right. exists x. auto.
  - intros [[[H|H] _]|(y & [H|H] & E)]; try discriminate. injection H as <-. exact E.
  - intros H. left. auto.
  - intros [[_ H]|(y & [H|H] & E)]; [exact H|discriminate|discriminate].
  - intros H. left. auto.
  - intros [[_ H]|(y & [H|H] & E)]; [exact H|discriminate|discriminate].
Qed.
Example C113_ex : t_is_zeroed (pt "a" (@VHist xQ (mkXHist [fofZ 1] [0; 0]%N None)) false None 0) = true /\ t_is_zeroed (pt "a" (VSum fzero) false None 0) = true /\
  t_is_zeroed (pt "a" (@VQuant xQ [fzero] fzero) false None 0) = false.
Proof. repeat split. Qed.
Print Assumptions C113_zeroed_neutral_refuted.
Print Assumptions C113_zeroed_neutral_partial.
Print Assumptions C113_zeroed.
