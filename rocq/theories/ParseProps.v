(** * Properties C27-C30: the text protocols. *)
From Verif Require Import Base BaseFacts TelemetryModel ParseModel ParseSpec ParseProofs QExample TelemetryProps.
Open Scope string_scope. Open Scope list_scope. Open Scope nat_scope.

(** ** C27: success iff there is at least one line and every line follows the
    grammar; then one point per line, in order, as the line says. *)
Theorem C27_statsd_grammar : forall (Q : QLib) (pf : string -> option f64) (cfg : statsd_cfg) (now : Z) (base : telemetry) (source : string),
  cfg_ok cfg ->
  (forall ts, parse_statsd pf cfg now base source [] = PReturn true ts <->
     lines source <> [] /\
     Forall2 (fun src t => exists s, says pf src s /\ means cfg now base s t) (lines source) ts) /\
  ((exists ts, parse_statsd pf cfg now base source [] = PReturn true ts) <->
     lines source <> [] /\ Forall (fun src => exists s, says pf src s) (lines source)) /\
  parse_statsd pf cfg now base source [] <> PPanicked.
Proof.
  intros Q pf cfg now base source Hc. unfold parse_statsd. split; [|split].
  - intros ts. exact (statsd_loop_iff pf cfg now base (lines source) Hc ts).
  - split.
    + intros (ts & H). apply statsd_loop_iff in H as [H1 H2]; [|assumption]. split; [assumption|].
      clear H1. induction H2 as [|l t ls ts' (s & Hs & _) _ IH]; constructor; eauto.
    + intros [H1 H2]. assert (G : exists ts, Forall2 (line_point pf cfg now base) (lines source) ts).
      { clear H1. induction H2 as [|l ls (s & Hs) _ (ts & IH)]; [exists []; constructor|].
        destruct (line_says pf cfg now base l s Hc Hs) as (t & _ & Hm). exists (t :: ts). constructor; [exists s; auto|assumption]. }
      destruct G as (ts & G). exists ts. apply statsd_loop_iff; auto.
  - apply statsd_loop_total; assumption.
Qed.
(** each line has at most one reading *)
Theorem C27_unambiguous : forall (Q : QLib) (pf : string -> option f64) (cfg : statsd_cfg) (now : Z) (base : telemetry) (src : string) s t s' t',
  cfg_ok cfg -> says pf src s -> means cfg now base s t -> says pf src s' -> means cfg now base s' t' -> t = t'.
Proof.
  intros Q pf cfg now base src s t s' t' Hc H1 H2 H3 H4.
  assert (E1 : statsd_line pf cfg now base src = POk t) by (apply line_iff; eauto).
  assert (E2 : statsd_line pf cfg now base src = POk t') by (apply line_iff; eauto).
  congruence.
Qed.
(** the lines of a packet: pieces ended by line feeds *)
Lemma srev_app : forall s acc, srev s acc = (srev s "" ++ acc)%string.
Proof.
  induction s as [|x s IH]; intros acc; [reflexivity|]. cbn [srev]. rewrite IH, (IH (String x "")).
  rewrite sapp_assoc. reflexivity.
Qed.
Lemma split_lines_piece l rest : forall cur, free_of lf l ->
  split_lines cur (l ++ String lf rest)%string = (srev cur l) :: split_lines "" rest.
Proof.
  induction l as [|x l IH]; intros cur H; cbn [append split_lines].
  - rewrite Ascii.eqb_refl. reflexivity.
  - destruct H as [H1 H2]. destruct (Ascii.eqb_spec x lf); [contradiction|]. rewrite IH by assumption. reflexivity.
Qed.
Lemma strip_cr_keeps : forall s, (forall s', s <> (s' ++ String (ascii_of_nat 13) "")%string) -> strip_cr s = s.
Proof.
  induction s as [|x s IH]; intros H; [reflexivity|]. cbn [strip_cr]. destruct s as [|y s].
  - destruct (Ascii.eqb_spec x cr) as [->|]; [|reflexivity]. exfalso. exact (H "" eq_refl).
  - rewrite IH; [reflexivity|]. intros s' E. apply (H (String x s')). rewrite E. reflexivity.
Qed.
Lemma strip_cr_drops : forall s, strip_cr (s ++ String (ascii_of_nat 13) "")%string = s.
Proof. induction s as [|x s IH]; [reflexivity|]. cbn [append strip_cr]. rewrite IH. destruct s; reflexivity. Qed.
(** Lines end with a line feed (byte 10), or a carriage return (13) and a line feed; the last one may have no end. *)
Theorem C27_lines_of_a_packet : forall (ls : list (string * bool)) (last : string),
  Forall (fun l => free_of (ascii_of_nat 10) l /\ forall l', l <> (l' ++ String (ascii_of_nat 13) "")%string) (last :: map fst ls) ->
  lines (fold_right (fun (l : string * bool) (acc : string) => (fst l ++ (if snd l then String (ascii_of_nat 13) "" else "") ++ String (ascii_of_nat 10) acc)%string) last ls) =
    (map fst ls ++ if seqb last "" then [] else [last])%list.
Proof.
  intros ls last H. inversion H as [|? ? [L1 L2] Hls]; subst. clear H. unfold lines. induction ls as [|[l b] ls IH].
  - cbn [fold_right map app]. assert (E : forall s cur, free_of lf s -> split_lines cur s = match srev cur s with "" => [] | _ => [srev cur s] end).
    { clear. induction s as [|x s IH]; intros cur F; cbn [split_lines srev].
      - destruct cur as [|c cur]; [reflexivity|]. cbn [srev]. rewrite srev_app. destruct (srev cur ""); reflexivity.
      - destruct F as [F1 F2]. destruct (Ascii.eqb_spec x lf); [contradiction|]. rewrite IH by assumption. cbn [srev]. reflexivity. }
    rewrite E by exact L1. cbn [srev]. destruct last as [|c last]; [reflexivity|]. cbn [seqb map]. rewrite strip_cr_keeps by exact L2. reflexivity.
  - cbn [map] in Hls. inversion Hls as [|? ? [H1 H2] H3]; subst. cbn [fold_right fst snd map app] in *.
    assert (F : free_of lf (l ++ (if b then String (ascii_of_nat 13) "" else ""))%string).
    { clear -H1. induction l as [|x l IH]; cbn; [destruct b; cbn; [split; [discriminate|exact I]|exact I]|]. destruct H1 as [A B]. split; [exact A|]. apply IH. exact B. }
    rewrite <- sapp_assoc. change (ascii_of_nat 10) with lf. rewrite split_lines_piece by exact F. cbn [map srev]. f_equal; [|apply IH; exact H3].
    destruct b; [apply strip_cr_drops|]. rewrite sapp_nil_r. apply strip_cr_keeps. exact H2.
Qed.
Definition xpf (s : string) : option f64 :=
  if seqb s "1" then Some (fofZ 1) else if seqb s "+2" then Some (fofZ 2) else if seqb s "0.5" then Some (fratio 1 2) else None.
Definition xcfg : statsd_cfg := mkStatsdCfg [((fun n => seqb n "h"), [fofZ 1; fofZ 2])] (fratio 1 100).
Definition xbase : @telemetry xQ := pt "" (VSet fzero) false None 0.
Definition xnl : string := String lf "".
Example C27_ex : @cfg_ok xQ xcfg /\
  lines ("a.b:+2|g" ++ xnl ++ "x:1|c|@0.5" ++ xnl) = ["a.b:+2|g"; "x:1|c|@0.5"] /\
  parse_statsd xpf xcfg 7 xbase ("a.b:+2|g" ++ xnl ++ "x:1|c|@0.5" ++ xnl) [] =
   PReturn true [pt "a.b" (VSum (fofZ 2)) true None 7; pt "x" (VSum (fmul (fofZ 1) (fdiv fone (fratio 1 2)))) false None 7] /\
  parse_statsd xpf xcfg 7 xbase "a:1|g|" [] = PReturn false [] /\
  parse_statsd xpf xcfg 7 xbase ":1|g" [] = PReturn false [].
Proof.
  split; [split; [reflexivity|constructor; [|constructor]]; split; [reflexivity|eexists; reflexivity]|].
  repeat split.
Qed.
Print Assumptions C27_statsd_grammar.
Print Assumptions C27_unambiguous.
Print Assumptions C27_lines_of_a_packet.

(** ** C28: kind, persistence and value of the point of a line *)
Lemma one_line : forall (Q : QLib) pf cfg now base src s, cfg_ok cfg -> lines src = [src] -> says pf src s ->
  exists t, parse_statsd pf cfg now base src [] = PReturn true [t] /\ means cfg now base s t.
Proof.
  intros Q pf cfg now base src s Hc El Hs. destruct (line_says pf cfg now base src s Hc Hs) as (t & E & Hm). exists t.
  unfold parse_statsd. rewrite El. cbn [statsd_loop]. rewrite E. auto.
Qed.
Theorem C28_gauge_and_counter : forall (Q : QLib) (pf : string -> option f64) cfg now base name vtext v bar rtext rate,
  cfg_ok cfg -> name <> "" -> free_of ":" name -> free_of "|" vtext ->
  pf vtext = Some v -> pf rtext = Some rate ->
  let one src p val := lines src = [src] -> exists t, parse_statsd pf cfg now base src [] = PReturn true [t] /\
     t_name t = name /\ t_timestamp t = now /\ t_tags t = t_tags base /\ t_persist t = p /\ t_value t = val in
  let gauge x := if explicitly_signed vtext then VSum x else VSet x in
  let scaled := fmul v (fdiv fone rate) in
  one (line_text name vtext TGauge None) true (gauge v) /\
  one (line_text name vtext TCounter None) false (VSum v) /\
  one (line_text name vtext TGauge (Some (bar, rtext))) true (gauge scaled) /\
  one (line_text name vtext TCounter (Some (bar, rtext))) false (VSum scaled).
Proof.
  intros Q pf cfg now base name vtext v bar rtext rate Hc Hn Hf Hv Pv Pr one gauge scaled. unfold one, gauge, scaled.
  assert (G : forall ty rt, rt = None \/ rt = Some (bar, rtext) -> lines (line_text name vtext ty rt) = [line_text name vtext ty rt] ->
    exists t, parse_statsd pf cfg now base (line_text name vtext ty rt) [] = PReturn true [t] /\
      means cfg now base (mkStat name v (explicitly_signed vtext) ty (match rt with None => None | Some _ => Some rate end)) t).
  { intros ty rt Hrt El. destruct Hrt as [-> | ->]; apply one_line; auto; [eapply says_plain|eapply says_sampled]; eauto. }
  pose proof (G TGauge None (or_introl eq_refl)) as G1. pose proof (G TCounter None (or_introl eq_refl)) as G2.
  pose proof (G TGauge (Some (bar, rtext)) (or_intror eq_refl)) as G3. pose proof (G TCounter (Some (bar, rtext)) (or_intror eq_refl)) as G4.
  clear G. split; [|split; [|split]]; intros El.
  - destruct (G1 El) as (t & E & H1 & H2 & H3 & _ & _ & H4 & H5). exists t. exact (conj E (conj H1 (conj H2 (conj H3 (conj H4 H5))))).
  - destruct (G2 El) as (t & E & H1 & H2 & H3 & _ & _ & H4 & H5). exists t. exact (conj E (conj H1 (conj H2 (conj H3 (conj H4 H5))))).
  - destruct (G3 El) as (t & E & H1 & H2 & H3 & _ & _ & H4 & H5). exists t. exact (conj E (conj H1 (conj H2 (conj H3 (conj H4 H5))))).
  - destruct (G4 El) as (t & E & H1 & H2 & H3 & _ & _ & H4 & H5). exists t. exact (conj E (conj H1 (conj H2 (conj H3 (conj H4 H5))))).
Qed.
Theorem C28_timer_and_histogram : forall (Q : QLib) (pf : string -> option f64) cfg now base src s,
  cfg_ok cfg -> lines src = [src] -> says pf src s -> st_type s = TTimer \/ st_type s = THistogram ->
  exists t, parse_statsd pf cfg now base src [] = PReturn true [t] /\
    t_name t = st_name s /\ t_timestamp t = now /\ t_tags t = t_tags base /\ t_persist t = false /\
    let x := match st_rate s with None => st_value s | Some r => fmul (st_value s) (fdiv fone r) end in
    ((Forall (fun m => fst m (st_name s) = false) (sc_masks cfg) /\
      t_value t = VQuant (c_insert (c_new (sc_error cfg)) x) x) \/
     (exists m1 re bs m2 h, sc_masks cfg = m1 ++ (re, bs) :: m2 /\
        Forall (fun m => fst m (st_name s) = false) m1 /\ re (st_name s) = true /\
        h_new (fsort bs) = Some h /\ t_value t = VHist (h_insert h x))).
Proof.
  intros Q pf cfg now base src s Hc El Hs Ht. destruct (one_line Q pf cfg now base src s Hc El Hs) as (t & E & (H1 & H2 & H3 & _ & _ & H4)).
  exists t. split; [exact E|]. split; [exact H1|]. split; [exact H2|]. split; [exact H3|].
  assert (H5 : t_persist t = false /\
      match first_mask (sc_masks cfg) (st_name s) with
      | None => t_value t = VQuant (c_insert (c_new (sc_error cfg)) (scaled s)) (scaled s)
      | Some bs => exists h, h_new (fsort bs) = Some h /\ t_value t = VHist (h_insert h (scaled s))
      end) by (destruct Ht as [Ht|Ht]; rewrite Ht in H4; exact H4).
  destruct H5 as [Hp Hv]. split; [exact Hp|]. cbv zeta. unfold scaled in Hv.
  assert (G : forall ms, match first_mask ms (st_name s) with
     | None => Forall (fun m => fst m (st_name s) = false) ms
     | Some bs => exists m1 re m2, ms = m1 ++ (re, bs) :: m2 /\ Forall (fun m => fst m (st_name s) = false) m1 /\ re (st_name s) = true end).
  { induction ms as [|[re bs] ms IH]; cbn; [constructor|]. destruct (re (st_name s)) eqn:Er.
    - exists [], re, ms. auto.
    - destruct (first_mask ms (st_name s)).
      + destruct IH as (m1 & re' & m2 & -> & HF & Hr). exists ((re, bs) :: m1), re', m2. split; [reflexivity|]. split; [constructor; assumption|assumption].
      + constructor; assumption. }
  specialize (G (sc_masks cfg)). destruct (first_mask (sc_masks cfg) (st_name s)) as [bs|].
  - right. destruct G as (m1 & re & m2 & Em & HF & Hr). destruct Hv as (h & Hh & Hv). exists m1, re, bs, m2, h. auto 10.
  - left. auto.
Qed.
Definition xview (o : @pout xQ) : list (string * bool * nat) :=
  match o with
  | PReturn true ts => map (fun t => (t_name t, t_persist t,
       match t_value t with VSet _ => 0 | VSum _ => 1 | VHist _ => 2 | VQuant _ _ => 3 end)) ts
  | _ => []
  end.
Example C28_ex : lines "a:+2|g" = ["a:+2|g"] /\
  says xpf "h:1|ms|@0.5" (mkStat "h" (fofZ 1) false TTimer (Some (fratio 1 2))) /\
  xview (parse_statsd xpf xcfg 7 xbase "a:1|g" []) = [("a", true, 0)] /\
  xview (parse_statsd xpf xcfg 7 xbase "a:+2|g" []) = [("a", true, 1)] /\
  xview (parse_statsd xpf xcfg 7 xbase "a:1|c" []) = [("a", false, 1)] /\
  xview (parse_statsd xpf xcfg 7 xbase "h:1|ms|@0.5" []) = [("h", false, 2)] /\
  xview (parse_statsd xpf xcfg 7 xbase "q:1|h" []) = [("q", false, 3)].
Proof.
  split; [reflexivity|]. split.
  - apply (says_sampled xpf "h:1|ms|@0.5" "h" "1" (fofZ 1) TTimer true "0.5" (fratio 1 2)); try reflexivity; try discriminate; repeat split; discriminate.
  - repeat split.
Qed.
Print Assumptions C28_gauge_and_counter.
Print Assumptions C28_timer_and_histogram.

(** ** C29 *)
Theorem C29_graphite_grammar : forall (Q : QLib) (pf : string -> option f64) (pi : string -> option Z) (base : telemetry) (ws : list string),
  (forall ts, graphite_words pf pi base ws [] = PReturn true ts <-> ws <> [] /\ triples pf pi base ws ts) /\
  ((exists ts, graphite_words pf pi base ws [] = PReturn true ts) \/ (exists r, graphite_words pf pi base ws [] = PReturn false r)).
Proof.
  intros Q pf pi base ws. split; [apply graphite_iff|].
  destruct (graphite_words pf pi base ws []) as [[|] r|] eqn:E; [eauto|eauto|]. exfalso. eapply graphite_total; eauto.
Qed.
Definition xpi (s : string) : option Z := if seqb s "10" then Some 10%Z else if seqb s "20" then Some 20%Z else None.
Example C29_ex :
  graphite_words xpf xpi xbase ["a"; "1"; "10"; "b"; "+2"; "20"] [] = PReturn true [pt "a" (VSet (fofZ 1)) false None 10; pt "b" (VSet (fofZ 2)) false None 20] /\
  graphite_words xpf xpi xbase ["a"; "1"; "10"; "b"; "1"] [] = PReturn false [pt "a" (VSet (fofZ 1)) false None 10] /\
  graphite_words xpf xpi xbase ["a"; "1"; "zz"] [] = PReturn false [].
Proof. repeat split. Qed.
Print Assumptions C29_graphite_grammar.

(** ** C30: the full claim is false.  A rejected statsd packet, or graphite line,
    leaves the points parsed before the error in the vector, and they are emitted
    with the next accepted one. *)
Theorem C30_statsd_refuted : exists (Q : QLib) (pf : string -> option f64) cfg base (p1 p2 : string) t1 t2,
  cfg_ok cfg /\
  accepted (parse_statsd pf cfg 0 base) p1 = false /\
  parse_statsd pf cfg 0 base p2 [] = PReturn true [t2] /\
  source_loop (parse_statsd pf cfg 0 base) [p1; p2] [] = Some ([t1; t2], [], 1%N, 1%N).
Proof.
  exists xQ, xpf, xcfg, xbase, ("a:1|c" ++ xnl ++ "oops")%string, "b:+2|c", (pt "a" (VSum (fofZ 1)) false None 0), (pt "b" (VSum (fofZ 2)) false None 0).
  split; [split; [reflexivity|constructor; [|constructor]]; split; [reflexivity|eexists; reflexivity]|]. repeat split.
Qed.
(** for graphite even an empty line, rejected by itself, is then accepted *)
Theorem C30_graphite_refuted : exists (Q : QLib) (pf : string -> option f64) (pi : string -> option Z) base (l1 l2 : list string) t1,
  accepted (graphite_words pf pi base) l1 = false /\ accepted (graphite_words pf pi base) l2 = false /\
  source_loop (graphite_words pf pi base) [l1; l2] [] = Some ([t1], [], 1%N, 1%N).
Proof.
  exists xQ, xpf, xpi, xbase, ["a"; "1"; "10"; "b"], [], (pt "a" (VSet (fofZ 1)) false None 10). repeat split.
Qed.
(** What holds: when every rejected packet fails before its first point, the
    points emitted are exactly those of the accepted packets, and the good and bad
    counters count them. *)
Theorem C30_statsd_partial : forall (Q : QLib) (pf : string -> option f64) cfg now base (ps : list string),
  cfg_ok cfg ->
  Forall (fun p => accepted (parse_statsd pf cfg now base) p = true \/
                   match lines p with [] => True | l :: _ => forall s, ~ says pf l s end) ps ->
  exists g b, source_loop (parse_statsd pf cfg now base) ps [] =
      Some (flat_map (fun p => match parse_statsd pf cfg now base p [] with PReturn true r => r | _ => [] end) ps, [], g, b) /\
    g = N.of_nat (List.length (filter (accepted (parse_statsd pf cfg now base)) ps)) /\
    (g + b)%N = N.of_nat (List.length ps).
Proof.
  intros Q pf cfg now base ps Hc H.
  apply (source_loop_clean (parse_statsd pf cfg now base)).
  - intros p r. apply statsd_loop_total; assumption.
  - eapply Forall_impl; [|exact H]. clear H. intros p Hp r E. unfold accepted in Hp. rewrite E in Hp.
    destruct Hp as [Hp|Hp]; [discriminate|]. unfold parse_statsd in E. destruct (lines p) as [|l ls]; cbn [statsd_loop] in E.
    + inversion E; reflexivity.
    + destruct (statsd_line pf cfg now base l) as [t| |] eqn:El; [|inversion E; reflexivity|discriminate].
      apply line_iff in El as (s & Hs & _); [|assumption]. exfalso. eapply Hp; eauto.
Qed.
(** a packet of one line cannot leave anything behind *)
Theorem C30_single_line_packets : forall (Q : QLib) (pf : string -> option f64) cfg now base (ps : list string),
  cfg_ok cfg -> Forall (fun p => List.length (lines p) <= 1) ps ->
  exists g b, source_loop (parse_statsd pf cfg now base) ps [] =
      Some (flat_map (fun p => match parse_statsd pf cfg now base p [] with PReturn true r => r | _ => [] end) ps, [], g, b).
Proof.
  intros Q pf cfg now base ps Hc H. destruct (C30_statsd_partial Q pf cfg now base ps Hc) as (g & b & E & _); [|eauto].
  eapply Forall_impl; [|exact H]. clear H. intros p Hp. cbv beta in Hp. unfold accepted, parse_statsd.
  destruct (lines p) as [|l [|]]; [right; exact I| |cbn in Hp; lia].
  cbn [statsd_loop]. destruct (statsd_line pf cfg now base l) as [t| |] eqn:El.
  - left. reflexivity.
  - right. intros s Hs. destruct (line_says pf cfg now base l s Hc Hs) as (t & E & _). congruence.
  - right. intros s Hs. destruct (line_says pf cfg now base l s Hc Hs) as (t & E & _). congruence.
Qed.
Theorem C30_graphite_partial : forall (Q : QLib) (pf : string -> option f64) (pi : string -> option Z) base (ps : list (list string)),
  Forall (fun ws => accepted (graphite_words pf pi base) ws = true \/ List.length ws <= 3) ps ->
  exists g b, source_loop (graphite_words pf pi base) ps [] =
      Some (flat_map (fun p => match graphite_words pf pi base p [] with PReturn true r => r | _ => [] end) ps, [], g, b) /\
    g = N.of_nat (List.length (filter (accepted (graphite_words pf pi base)) ps)) /\
    (g + b)%N = N.of_nat (List.length ps).
Proof.
  intros Q pf pi base ps H.
  apply (source_loop_clean (graphite_words pf pi base)).
  - intros p r. apply graphite_total.
  - eapply Forall_impl; [|exact H]. clear H. intros p Hp r E. unfold accepted in Hp. rewrite E in Hp.
    destruct Hp as [Hp|Hp]; [discriminate|]. destruct p as [|a [|b [|c [|d p]]]]; cbn [graphite_words] in E; try (inversion E; reflexivity); [|cbn in Hp; lia].
    destruct (pf b); [|inversion E; reflexivity]. destruct (pi c); [|inversion E; reflexivity].
    rewrite graphite_harden in E. cbn in E. discriminate.
Qed.
(** nothing that was parsed is ever lost or repeated: emitted points plus what is
    left in the vector are, in order, the points pushed by all packets *)
Theorem C30_leftovers_conserved : forall (Q : QLib) (pf : string -> option f64) cfg now base (ps : list string),
  cfg_ok cfg ->
  exists sent kept g b, source_loop (parse_statsd pf cfg now base) ps [] = Some (sent, kept, g, b) /\
    sent ++ kept = flat_map (fun p => match parse_statsd pf cfg now base p [] with PReturn _ r => r | PPanicked => [] end) ps /\
    (g + b)%N = N.of_nat (List.length ps).
Proof.
  intros Q pf cfg now base ps Hc.
  assert (G : forall res, exists sent kept g b, source_loop (parse_statsd pf cfg now base) ps res = Some (sent, kept, g, b) /\
    sent ++ kept = res ++ flat_map (fun p => match parse_statsd pf cfg now base p [] with PReturn _ r => r | PPanicked => [] end) ps /\
    (g + b)%N = N.of_nat (List.length ps)); [|apply (G [])].
  induction ps as [|p ps IH]; intros res; cbn [source_loop flat_map].
  - exists [], res, 0%N, 0%N. rewrite app_nil_r. auto.
  - unfold parse_statsd at 1 4. rewrite statsd_loop_res.
    destruct (statsd_loop pf cfg now base (lines p) []) as [ok r|] eqn:E; [|exfalso; eapply statsd_loop_total; eauto].
    destruct (match lines p with [] => _ | _ => ok end).
    + destruct (IH []) as (s & k & g & b & -> & Hs & Hb). exists ((res ++ r) ++ s), k, (g + 1)%N, b. split; [reflexivity|].
      rewrite <- !app_assoc, Hs. cbn [app List.length]. split; [reflexivity|lia].
    + destruct (IH (res ++ r)) as (s & k & g & b & -> & Hs & Hb). exists s, k, g, (b + 1)%N. split; [reflexivity|].
      rewrite Hs, <- app_assoc. cbn [List.length]. split; [reflexivity|lia].
Qed.
Example C30_ex :
  source_loop (parse_statsd xpf xcfg 0 xbase) ["a:1|c"; "oops"; "b:+2|c"] [] =
    Some ([pt "a" (VSum (fofZ 1)) false None 0; pt "b" (VSum (fofZ 2)) false None 0], [], 2%N, 1%N) /\
  lines "oops" = ["oops"] /\ accepted (parse_statsd xpf xcfg 0 xbase) "oops" = false.
Proof. repeat split. Qed.
Print Assumptions C30_statsd_refuted.
Print Assumptions C30_graphite_refuted.
Print Assumptions C30_statsd_partial.
Print Assumptions C30_single_line_packets.
Print Assumptions C30_graphite_partial.
Print Assumptions C30_leftovers_conserved.
