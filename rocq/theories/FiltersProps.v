(** * Properties C16 (refutation), C19-C23, C61: the filters. *)
From Verif Require Import Base BaseFacts TelemetryModel TelemetrySpec TelemetryProofs FlowModel FlowSpec FlowProofs FiltersModel FiltersSpec FiltersProofs.
From Verif Require Import QExample TelemetryProps FlowProps.
Open Scope string_scope. Open Scope list_scope. Open Scope nat_scope.

(** ** C15 applies to the delay and flush boundary filters: they never fail. *)
Theorem C15_delay_and_flush_boundary_never_fail : forall (Q : QLib),
  (forall tol clock, never_fails (delay_filt tol clock)) /\ (forall tol, never_fails (fb_filt tol)).
Proof. intros Q. split; [apply delay_never_fails|apply fb_never_fails]. Qed.
Print Assumptions C15_delay_and_flush_boundary_never_fail.

(** ** C19.  Documented: rejected iff the distance exceeds the tolerance.  False
    at exactly the tolerance, and for distances that overflow 64 bits. *)
Theorem C19_boundary_refuted : exists (Q : QLib) (tol now : Z) (t : telemetry),
  (Z.abs (t_timestamp t - now) <= tol)%Z /\ snd (delay_run tol dc_zero [(now, ETelemetry t)]) = [].
Proof. exists xQ, 10%Z, 100%Z, (pt "a" (VSet fone) false None 110). split; [cbn; lia|reflexivity]. Qed.
Theorem C19_overflow_refuted : exists (Q : QLib) (tol now : Z) (t : telemetry),
  (- 2 ^ 63 <= t_timestamp t < 2 ^ 63)%Z /\ (0 <= now < 2 ^ 63)%Z /\
  (tol < Z.abs (t_timestamp t - now))%Z /\
  snd (delay_run tol dc_zero [(now, ETelemetry t)]) = [ETelemetry t].
Proof.
  exists xQ, 10%Z, 1500000000%Z, (pt "a" (VSet fone) false None (1500000000 - 2 ^ 63)).
  split; [cbn; lia|]. split; [lia|]. split; [cbn; lia|reflexivity].
Qed.
(** The documented rule holds away from the boundary and without overflow.
    Missing: those two cases. *)
Theorem C19_delay_partial : forall (Q : QLib) (tol : Z) (c : delay_counts) (l : list (Z * event)),
  Forall fits l -> Forall (fun ce => ~ at_boundary tol ce) l ->
  snd (delay_run tol c l) = map snd (filter (timely tol) l).
Proof.
  intros Q tol c l Hf Hb. destruct (delay_run_spec tol l Hf c) as (-> & _). f_equal.
  clear Hf. induction Hb as [|ce l H _ IH]; [reflexivity|]. cbn [filter]. rewrite IH.
  replace (strictly_timely tol ce) with (timely tol ce); [reflexivity|].
  unfold timely, strictly_timely, at_boundary in *. destruct (e_timestamp (snd ce)); [|reflexivity]. lia.
Qed.
(** The rule the code follows, with its counters. *)
Theorem C19_delay_exact_rule : forall (Q : QLib) (tol : Z) (l : list (Z * event)),
  Forall fits l ->
  let r := delay_run tol dc_zero l in
  snd r = map snd (filter (strictly_timely tol) l) /\
  dc_telem_acc (fst r) = count (fun ce => is_telemetry (snd ce) && strictly_timely tol ce)%bool l /\
  dc_telem_rej (fst r) = count (fun ce => is_telemetry (snd ce) && negb (strictly_timely tol ce))%bool l /\
  dc_log_acc (fst r) = count (fun ce => is_log (snd ce) && strictly_timely tol ce)%bool l /\
  dc_log_rej (fst r) = count (fun ce => is_log (snd ce) && negb (strictly_timely tol ce))%bool l.
Proof. intros Q tol l Hf. exact (delay_run_spec tol l Hf dc_zero). Qed.
(** Under Filter::run, each event is held against the clock at the time it is processed. *)
Lemma delay_at {Q : QLib} tol now c (e : event) : fits (now, e) -> snd (delay_process tol now c e) = if strictly_timely tol (now, e) then [e] else [].
Proof.
  intros H. destruct (delay_run_spec tol [(now, e)] (Forall_cons _ H (Forall_nil _)) c) as (E & _). cbn [delay_run] in E. destruct (delay_process tol now c e) as [c' out]. cbn [snd filter] in E |- *. rewrite app_nil_r in E. rewrite E.
  destruct (strictly_timely tol (now, e)); reflexivity.
Qed.
Theorem C19_under_run : forall (Q : QLib) tol (clock : nat -> Z) n polls,
  let es := FlowSpec.received polls in let clocked := combine (map clock (seq 0 (List.length es))) es in
  ~ In EShutdown es -> Forall fits clocked ->
  fr_sent (f_run (delay_filt tol clock) n polls (0, dc_zero) [] 0) = map snd (filter (strictly_timely tol) clocked).
Proof.
  intros Q tol clock n polls. cbv zeta. generalize 0 at 1 2 4 as k. generalize dc_zero as c. induction polls as [|[e|] polls IH]; intros c k Hn Hf; [reflexivity| |exact (IH c k Hn Hf)].
  change (FlowSpec.received (Some e :: polls)) with (e :: FlowSpec.received polls) in *. cbn [List.length seq map combine] in Hf |- *. inversion Hf as [|? ? F1 F2]; subst.
  assert (Hp := delay_at tol (clock k) c e F1). cbn [filter].
  assert (G : fr_sent (let '(st', pushed, err) := f_process (delay_filt tol clock) (k, c) e in match err with None => mkFres (([] ++ pushed) ++ fr_sent (f_run (delay_filt tol clock) n polls st' [] 0)) false [] st' [] | Some _ => mkFres [] false [] st' [] end) =
    map snd (if strictly_timely tol (clock k, e) then (clock k, e) :: filter (strictly_timely tol) (combine (map clock (seq (S k) (List.length (FlowSpec.received polls)))) (FlowSpec.received polls)) else filter (strictly_timely tol) (combine (map clock (seq (S k) (List.length (FlowSpec.received polls)))) (FlowSpec.received polls)))).
  { cbn [f_process delay_filt fst snd]. destruct (delay_process tol (clock k) c e) as [c' out]. cbn [snd] in Hp. subst out. cbn [fr_sent app]. rewrite (IH c' (S k)); [|intros X; apply Hn; right; exact X|exact F2].
    destruct (strictly_timely tol (clock k, e)); reflexivity. }
  rewrite <- G. cbn [f_run]. destruct e; try reflexivity; try (cbn [f_process delay_filt fst snd]; destruct (delay_process tol (clock k) c _) as [c' out]; reflexivity).
  exfalso. apply Hn. left. reflexivity.
Qed.
Example C19_ex_run : let polls := [None; Some (xt "a" 109); None; Some (ETimerFlush 1); Some (xt "b" 109)] in let clock := fun k => (100 + 10 * Z.of_nat k)%Z in
  ~ In EShutdown (FlowSpec.received polls) /\ Forall fits (combine (map clock (seq 0 3)) (FlowSpec.received polls)) /\ fr_sent (f_run (delay_filt 10 clock) 1 polls (0, dc_zero) [] 0) = [xt "a" 109; ETimerFlush 1].
Proof. split; [cbn; intuition discriminate|]. split; [repeat constructor|reflexivity]. Qed.
Print Assumptions C19_under_run.
Example C19_ex : let l := [(100, xt "a" 109); (100, ETimerFlush 1); (101, xt "b" 111); (101, xt "c" 92)]%Z in
  Forall fits l /\ snd (delay_run 10 dc_zero l) = [xt "a" 109; ETimerFlush 1; xt "c" 92] /\
  fst (delay_run 10 dc_zero l) = mkDC 2 1 0 0.
Proof. split; [repeat constructor|split; reflexivity]. Qed.
Print Assumptions C19_boundary_refuted.
Print Assumptions C19_overflow_refuted.
Print Assumptions C19_delay_partial.
Print Assumptions C19_delay_exact_rule.

(** ** C20 *)
(** Nothing is lost, invented, duplicated or reordered within a timestamp:
    what came out and what is held is what came in.  Flushes come out as they
    came in. *)
Theorem C20_conservation : forall (Q : QLib) (tol : nat) (evs : list event) (ts : Z),
  let r := fb_run tol [] evs in
  filter (at_ts ts) (List.concat (snd r)) ++ filter (at_ts ts) (held (fst r)) = filter (at_ts ts) evs /\
  filter is_timer_flush (List.concat (snd r)) = filter is_timer_flush evs.
Proof.
  intros Q tol evs ts r. destruct (fb_run_view tol evs [] fb_inv_nil) as (I1 & I2 & I3 & _). fold r in I1, I2, I3.
  split; [|exact I3]. rewrite held_view by assumption. specialize (I2 ts).
  pose proof (vrun_conserves tol ts evs None) as H. cbn [vheld app] in H. change (view ts []) with (@None (nat * list event)) in I2.
  rewrite I2 in H. cbn [fst snd] in H. symmetry; exact H.
Qed.
(** Events are released only by a flush, before it, in timestamp order. *)
Theorem C20_shape : forall (Q : QLib) (tol : nat) (evs : list event),
  Forall2 (fun e out =>
    (is_timer_flush e = false -> out = []) /\
    (is_timer_flush e = true -> exists l, out = l ++ [e] /\ in_ts_order l)) evs (snd (fb_run tol [] evs)).
Proof. intros Q tol evs. apply (fb_run_view tol evs [] fb_inv_nil). Qed.
(** The hold of a timestamp opened by [e] keeps everything of that timestamp
    through [tol] flushes, and the next flush releases all of it. *)
Theorem C20_released_by_flush_after_tolerance : forall (Q : QLib) (tol : nat) (pre mid : list event) (e : event) (ts : Z),
  e_timestamp e = Some ts ->
  filter (at_ts ts) (held (fst (fb_run tol [] pre))) = [] ->
  flushes mid <= tol ->
  filter (at_ts ts) (List.concat (snd (fb_run tol (fst (fb_run tol [] pre)) (e :: mid)))) = [] /\
  filter (at_ts ts) (held (fst (fb_run tol [] (pre ++ e :: mid)))) = filter (at_ts ts) (e :: mid) /\
  (flushes mid = tol -> forall i,
     let r := fb_process tol (fst (fb_run tol [] (pre ++ e :: mid))) (ETimerFlush i) in
     filter (at_ts ts) (snd r) = filter (at_ts ts) (e :: mid) /\ filter (at_ts ts) (held (fst r)) = []).
Proof. intros Q tol pre mid e ts. exact (fb_life tol pre e mid ts). Qed.
Example C20_ex :
  snd (fb_run 1 [] [xt "a" 5; xt "b" 3; ETimerFlush 1; xt "c" 5; xt "d" 4; ETimerFlush 2; ETimerFlush 3]) =
  [[]; []; [ETimerFlush 1]; []; []; [xt "b" 3; xt "a" 5; xt "c" 5; ETimerFlush 2]; [xt "d" 4; ETimerFlush 3]].
Proof. reflexivity. Qed.
Print Assumptions C20_conservation.
Print Assumptions C20_shape.
Print Assumptions C20_released_by_flush_after_tolerance.

(** ** C21.  False: a raw event never comes out, whatever the tolerance and
    whatever follows. *)
Theorem C21_raw_forwarded_refuted : forall (Q : QLib) (r : raw), exists pre : list event,
  In (ERaw r) pre /\ forall tol post, ~ In (ERaw r) (List.concat (snd (fb_run tol [] (pre ++ post)))) /\
                                      ~ In (ERaw r) (held (fst (fb_run tol [] (pre ++ post)))).
Proof.
  intros Q r. exists [ERaw r]. split; [left; reflexivity|]. intros tol post.
  destruct (fb_run_view tol ([ERaw r] ++ post) [] fb_inv_nil) as ([_ K] & _ & _ & F). split.
  - intros H. apply in_concat in H as (out & Ho & Hr).
    assert (G : forall evs outs, Forall2 (fun e out => (is_timer_flush e = false -> out = []) /\
       (is_timer_flush e = true -> exists l, out = l ++ [e] /\ in_ts_order l)) evs outs -> In out outs -> False).
    { intros evs outs HF. induction HF as [|e o evs outs [H1 H2] _ IH]; [tauto|]. intros [<-|Hi]; [|auto].
      destruct (is_timer_flush e) eqn:Ef; [|rewrite H1 in Hr by reflexivity; destruct Hr].
      destruct (H2 eq_refl) as (l & -> & tss & Hl & _). apply in_app_or in Hr as [Hr|[E|[]]]; [|subst e; discriminate].
      apply (in_map e_timestamp) in Hr. rewrite Hl in Hr. apply in_map_iff in Hr as (x & Hx & _). discriminate. }
    eapply G; eassumption.
  - intros H. apply in_flat_map in H as (h & Hh & He). rewrite Forall_forall in K. specialize (K h Hh).
    unfold hold_ok in K. rewrite Forall_forall in K. specialize (K _ He). discriminate.
Qed.
Print Assumptions C21_raw_forwarded_refuted.

(** ** C22 *)
Theorem C22_json_encode : forall (Q : QLib) (E : jenv) (parse_line : bool) (tags : tagmap) (order : N) (l : logline) (time : string),
  tm_ok tags -> otm_ok (l_tags l) -> tm_ok (l_fields l) -> j_rfc3339 E (l_time l) = Some time ->
  exists (obj tagobj : jobj),
    json_process E parse_line tags order (ELog l) = Some [ERaw (mkRaw order EncJSON (j_print E obj) None None)] /\
    jobj_ok obj /\
    (forall k, alookup seqb k obj =
       first_of [ match parse_line, j_parse E (l_value l) with
                  | true, Some (JObj o) => o
                  | _, _ => [("message", JStr (l_value l))]
                  end;
                  map (fun kv => (fst kv, JStr (snd kv))) (l_fields l);
                  [("time", JStr time); ("path", JStr (l_path l)); ("tags", JObj tagobj)] ] k) /\
    (forall k, alookup seqb k tagobj =
       match match l_tags l with Some own => tm_get k own | None => None end with
       | Some v => Some (JStr v)
       | None => option_map JStr (tm_get k tags)
       end).
Proof.
  intros Q E pl tags order l time Ht Ho Hfi Hr.
  assert (Hmapk : forall m : tagmap, map fst (map (fun kv => (fst kv, JStr (snd kv))) m) = map fst m)
    by (intros m; rewrite map_map; reflexivity).
  assert (Hlk : forall (m : tagmap) k, alookup seqb k (map (fun kv => (fst kv, JStr (snd kv))) m) = option_map JStr (alookup seqb k m)).
  { intros m k. induction m as [|[a b] m IH]; [reflexivity|]. cbn. destruct (seqb k a); [reflexivity|exact IH]. }
  eexists. eexists. split; [unfold json_process; rewrite Hr; reflexivity|]. split; [apply merge_nodup|]. split.
  - intros k. unfold json_object. rewrite merge_lookup. cbn [first_of].
    rewrite jfrom_iter_lookup by (rewrite Hmapk; exact Hfi).
    destruct pl; [|reflexivity]. destruct (j_parse E (l_value l)) as [[]|]; reflexivity.
  - intros k. rewrite jfrom_iter_lookup by (rewrite Hmapk; apply tag_iter_NoDup; assumption). rewrite Hlk.
    rewrite tag_iter_lookup. destruct (l_tags l) as [own|]; [destruct (tm_get k own)|]; reflexivity.
Qed.
(** one output per input, other events unchanged, in order *)
Theorem C22_one_for_one : forall (Q : QLib) (E : jenv) (parse_line : bool) (tags : tagmap) (orders : nat -> N) (evs : list event),
  (forall l, In (ELog l) evs -> j_rfc3339 E (l_time l) <> None) ->
  exists outs, json_run E parse_line tags orders 0 evs = (outs, true) /\
  Forall2 (fun e out => match e with
                        | ELog _ => exists r, out = ERaw r /\ r_encoding r = EncJSON
                        | _ => out = e end) evs outs.
Proof.
  intros Q E pl tags orders evs. generalize 0. induction evs as [|e evs IH]; intros k H.
  - exists []. split; [reflexivity|constructor].
  - destruct (IH (S k)) as (outs & Eo & HF); [intros l Hl; apply H; right; exact Hl|]. cbn [json_run].
    destruct e as [t|l|i| |r]; cbn [json_process].
    2:{ specialize (H l (or_introl eq_refl)). destruct (j_rfc3339 E (l_time l)); [|congruence]. rewrite Eo.
        eexists. split; [reflexivity|]. constructor; [|exact HF]. eexists; split; reflexivity. }
    all: rewrite Eo; eexists; split; [reflexivity|]; constructor; [reflexivity|exact HF].
Qed.
Definition xenv : jenv := mkJenv (fun s => if seqb s "{}" then Some (JObj [("path", JNull); ("a", JBool true)]) else None)
  (fun o => [N.of_nat (List.length o)]) (fun z => if (z =? 0)%Z then Some "1970" else None).
Example C22_ex : json_object xenv true [("h", "x"); ("z", "d")] "1970" (mkLog 0 "/p" "{}" [("a", "f"); ("b", "g")] (Some [("h", "own")])) =
  [("path", JNull); ("a", JBool true); ("b", JStr "g"); ("time", JStr "1970"); ("tags", JObj [("h", JStr "own"); ("z", JStr "d")])].
Proof. reflexivity. Qed.
Print Assumptions C22_json_encode.
Print Assumptions C22_one_for_one.

(** ** C61.  Documented (json_encode_filter.rs:51-54): configured tags overwrite
    the event's.  False: the event's own tag wins. *)
Theorem C61_configured_tags_win_refuted : exists (E : jenv) (tags : tagmap) (l : logline) (k v : string),
  tm_get k tags = Some v /\
  alookup seqb "tags" (json_object E true tags "t" l) = Some (JObj [(k, JStr "own")]) /\ v <> "own".
Proof.
  exists xenv, [("h", "configured")], (mkLog 0 "/p" "line" [] (Some [("h", "own")])), "h", "configured".
  split; [reflexivity|]. split; [reflexivity|discriminate].
Qed.
(** What holds: a configured tag is present with the configured value unless the
    event carries that key itself.  Missing: the overwriting. *)
Theorem C61_configured_tags_added_partial : forall (own : option tagmap) (tags : tagmap) (k v : string),
  tm_get k tags = Some v ->
  (forall o, own = Some o -> tm_get k o = None) ->
  alookup seqb k (tag_iter own tags) = Some v.
Proof.
  intros own tags k v Hv Hn. rewrite tag_iter_lookup. destruct own as [o|]; [rewrite (Hn o eq_refl)|]; exact Hv.
Qed.
Example C61_ex : alookup seqb "z" (tag_iter (Some [("h", "own")]) [("h", "x"); ("z", "d")]) = Some "d".
Proof. reflexivity. Qed.
Print Assumptions C61_configured_tags_win_refuted.
Print Assumptions C61_configured_tags_added_partial.

(** ** C23 *)
Theorem C23_flush_indices : forall (Q : QLib) (S : script) (path : string) (now : Z) (st : sc_state S) (evs : list event),
  tick_succeeds S ->
  flush_indices (outputs (prog_filt S path now) (mkProg st 0%N) evs) = records 0 (flush_indices evs) /\
  StronglySorted N.lt (flush_indices (outputs (prog_filt S path now) (mkProg st 0%N) evs)).
Proof.
  intros Q S path now st evs H. rewrite (prog_flushes S path now evs H). split; [reflexivity|apply records_sorted].
Qed.
Theorem C23_raw_and_shutdown_pass : forall (Q : QLib) (S : script) (path : string) (now : Z) (p : prog S) (e : event),
  (exists r, e = ERaw r) \/ e = EShutdown -> f_process (prog_filt S path now) p e = (p, [e], None).
Proof. intros Q S path now p e [[r ->]| ->]; reflexivity. Qed.
(** where the tick fails a flush is reported as a failure every time it arrives, and tried again *)
Theorem C23_failed_ticks_repeat : forall (Q : QLib) (S : script) (path : string) (now : Z) (st : sc_state S) (idxs : list N),
  tick_fails S ->
  outputs (prog_filt S path now) (mkProg st 0%N) (map ETimerFlush idxs) = map (fun _ => failure_event path "tick" now) (filter (fun i => 0 <? i)%N idxs).
Proof.
  intros Q S path now st idxs Hf. revert st. induction idxs as [|i idxs IH]; intros st; [reflexivity|].
  cbn [map outputs f_process prog_filt prog_process pg_last pg_lua filter]. destruct i as [|i]; [apply IH|].
  cbn [N.leb N.compare N.ltb]. unfold run_lua. pose proof (Hf st [] []) as H. destruct (sc_call S st "tick" [] []) as [st' o]. cbn [snd] in H.
  destruct o as [| |logs metrics]; [| |destruct (H _ _ eq_refl)]; cbn [pg_last map app]; f_equal; apply IH.
Qed.
Definition xscript : @script xQ := mkScript nat (fun st f ms ls =>
  (st + 1, if seqb f "tick" then LDone [] [pt "tick" (VSet fone) false None 0] else LDone ls ms)).
Definition xbadscript : @script xQ := mkScript unit (fun st f ms ls =>
  (tt, if seqb f "tick" then LError else LDone ls ms)).
Example C23_ex : tick_succeeds xscript /\
  map (fun e => match e with ETimerFlush i => Some i | _ => None end)
   (outputs (prog_filt xscript "p" 0) (mkProg (S := xscript) 0 0%N)
     [ETimerFlush 1; xt "a" 1; ETimerFlush 1; ETimerFlush 3; ETimerFlush 2; ETimerFlush 4]) =
  [None; Some 1; None; None; Some 3; None; Some 4]%N.
Proof. split; [intros st ms ls; eexists; eexists; reflexivity|reflexivity]. Qed.
Example C23_ex_fails : tick_fails xbadscript.
Proof. intros st ms ls logs metrics H. discriminate H. Qed.
Print Assumptions C23_failed_ticks_repeat.
Print Assumptions C23_flush_indices.
Print Assumptions C23_raw_and_shutdown_pass.

(** ** C16, the full statement refuted: a programmable filter whose tick fails
    pushes the flush and then fails; the run loop keeps it and sends it with the
    next event that succeeds. *)
Theorem C16_failing_event_refuted : exists (Q : QLib) (F : filt) (polls : list (option event)) (st : f_state F),
  fr_sent (f_run F 1 polls st [] 0) <> outputs F st (upto_shutdown 1 (received polls)).
Proof.
  exists xQ, (prog_filt xbadscript "p" 0), [Some (ETimerFlush 1); Some (xt "a" 1)], (mkProg (S := xbadscript) tt 0%N).
  intros H. apply (f_equal (@List.length _)) in H. discriminate H.
Qed.
(** With a tick that succeeds the programmable filter fails clean, so C16 holds for it. *)
Theorem C16_programmable_partial : forall (Q : QLib) (S : script) (path : string) (now : Z),
  tick_succeeds S -> fails_clean (prog_filt S path now).
Proof.
  intros Q S path now Ht p e fe. destruct e as [t|l|i| |r]; cbn [f_process prog_filt prog_process].
  - pose proof (run_lua_err S path now (pg_lua p) "process_metric" [t] [] fe) as He.
    destruct (run_lua S path now (pg_lua p) "process_metric" [t] []) as [[st out] err]. cbn [fst snd] in *. intros E. apply He, E.
  - pose proof (run_lua_err S path now (pg_lua p) "process_log" [] [l] fe) as He.
    destruct (run_lua S path now (pg_lua p) "process_log" [] [l]) as [[st out] err]. cbn [fst snd] in *. intros E. apply He, E.
  - destruct (i <=? pg_last p)%N; [discriminate|].
    pose proof (tick_ok S path now (pg_lua p) Ht) as Hok.
    destruct (run_lua S path now (pg_lua p) "tick" [] []) as [[st out] err]. cbn [fst snd] in *. congruence.
  - discriminate.
  - discriminate.
Qed.
Print Assumptions C16_failing_event_refuted.
Print Assumptions C16_programmable_partial.
