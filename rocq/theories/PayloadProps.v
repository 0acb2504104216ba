(** * Properties C92-C98: the payload functions of the programmable filter. *)
From Verif Require Import Base BaseFacts TelemetryModel FiltersModel PayloadModel PayloadSpec PayloadProofs QExample TelemetryProps FlowProps.
Open Scope string_scope. Open Scope list_scope. Open Scope nat_scope.

(** Lua values for the examples *)
Inductive xval := XNil | XInt (z : Z) | XFlt (f : f64) | XStr (s : string).
Definition xint (v : xval) : Z := match v with XInt z => if ((- 2 ^ 63 <=? z) && (z <? 2 ^ 63))%Z%bool then z else 0%Z | _ => 0%Z end.
Lemma xint_range : forall v, (- 2 ^ 63 <= xint v < 2 ^ 63)%Z.
Proof. intros [|z|f|s]; cbn [xint]; try lia. destruct ((- 2 ^ 63 <=? z) && (z <? 2 ^ 63))%Z%bool eqn:E; lia. Qed.
#[export] Instance xL : LuaLib := {
  lval := xval; to_integer := xint;
  to_number v := match v with XInt z => fofZ z | XFlt f => f | _ => fzero end;
  to_str v := match v with XStr s => Some s | _ => None end;
  lnil := XNil; lstr := XStr; lnum := XFlt;
  to_integer_range := xint_range; to_integer_nil := eq_refl; to_str_nil := eq_refl; to_str_lstr _ := eq_refl }.
Definition xm (n : string) : @telemetry xQ := pt n (VSum (fofZ 1)) false None 5.
Definition xl (s : string) : logline := mkLog 5 "/a" s [] None.
Notation xinvoke := (@invoke xQ xL [("env", "prod")] "flt" 9).

(** ** C92: a payload function acts on the point or line its index names: 1 is the
    first, -1 the last; an index that names none is an error the script gets.
    False: such an index panics, in every function that uses it. *)
Theorem C92_refuted : forall (Q : QLib) (L : LuaLib) (gtags : tagmap) (path : string) (now : Z) (p : payload) (i k v : lval) (ks vs : string),
  fits p -> to_str k = Some ks -> to_str v = Some vs ->
  (picks_none (to_integer i) (List.length (p_metrics p)) ->
     Forall (fun c => invoke gtags path now p c = APanic) [MetricName i; SetMetricName i k; MetricTagValue i k; MetricSetTag i k v; MetricRemoveTag i k; MetricQuery i v]) /\
  (picks_none (to_integer i) (List.length (p_logs p)) ->
     Forall (fun c => invoke gtags path now p c = APanic) [LogValue i; LogPath i; LogSetValue i v; LogTagValue i k; LogSetTag i k v; LogRemoveTag i k; LogFieldValue i k; LogSetField i k v]).
Proof.
  intros Q L gtags path now p i k v ks vs F Hk Hv. split; intros H; repeat constructor; cbn [invoke]; rewrite ?Hk, ?Hv; (apply with_metric_out || apply with_log_out); assumption.
Qed.
(** Proved: with an index that names one, exactly that one is read or changed. *)
Theorem C92_metric_partial : forall (Q : QLib) (L : LuaLib) (gtags : tagmap) (path : string) (now : Z) (a : list telemetry) (m : telemetry) (b : list telemetry) (ls : list logline) (i k v : lval) (ks vs : string),
  let p := mkPay (a ++ m :: b) ls in
  fits p -> picks (to_integer i) a m b -> to_str k = Some ks -> to_str v = Some vs ->
  invoke gtags path now p (MetricName i) = ARet p (lstr (t_name m)) /\
  (exists m', invoke gtags path now p (SetMetricName i v) = ARet (mkPay (a ++ m' :: b) ls) lnil /\ same_measure m m' /\ t_tags m' = t_tags m /\ t_name m' = vs) /\
  (exists m' r, invoke gtags path now p (MetricSetTag i k v) = ARet (mkPay (a ++ m' :: b) ls) r /\ same_measure m m' /\ t_name m' = t_name m) /\
  (exists m' r, invoke gtags path now p (MetricRemoveTag i k) = ARet (mkPay (a ++ m' :: b) ls) r /\ same_measure m m' /\ t_name m' = t_name m) /\
  (exists r, invoke gtags path now p (MetricTagValue i k) = ARet p r).
Proof.
  intros Q L gtags path now a m b ls i k v ks vs p F H Hk Hv. subst p. cbn [invoke]. rewrite Hk, Hv, !(with_metric_in a m b ls i) by assumption.
  split; [reflexivity|]. split; [|split; [|split]].
  - rewrite set_metric_in by assumption. eexists. split; [reflexivity|]. unfold same_measure. cbn. auto 10.
  - destruct (insert_tag ks vs (t_tags m)) as [tg old]. rewrite set_metric_in by assumption. do 2 eexists. split; [reflexivity|]. unfold same_measure. cbn. auto 10.
  - destruct (remove_tag ks (t_tags m)) as [tg old]. rewrite set_metric_in by assumption. do 2 eexists. split; [reflexivity|]. unfold same_measure. cbn. auto 10.
  - eauto.
Qed.
Theorem C92_log_partial : forall (Q : QLib) (L : LuaLib) (gtags : tagmap) (path : string) (now : Z) (a : list logline) (l : logline) (b : list logline) (ms : list telemetry) (i k v : lval) (ks vs : string),
  let p := mkPay ms (a ++ l :: b) in
  fits p -> picks (to_integer i) a l b -> to_str k = Some ks -> to_str v = Some vs ->
  invoke gtags path now p (LogValue i) = ARet p (lstr (l_value l)) /\
  invoke gtags path now p (LogPath i) = ARet p (lstr (l_path l)) /\
  invoke gtags path now p (LogSetValue i v) = ARet (mkPay ms (a ++ mkLog (l_time l) (l_path l) vs (l_fields l) (l_tags l) :: b)) lnil /\
  (exists l' r, invoke gtags path now p (LogSetField i k v) = ARet (mkPay ms (a ++ l' :: b)) r /\ same_origin l l' /\ l_value l' = l_value l /\ l_tags l' = l_tags l /\
     gives r (alookup seqb ks (l_fields l)) /\ alookup seqb ks (l_fields l') = Some vs /\ forall k', k' <> ks -> alookup seqb k' (l_fields l') = alookup seqb k' (l_fields l)) /\
  (exists r, invoke gtags path now p (LogFieldValue i k) = ARet p r /\ gives r (alookup seqb ks (l_fields l))) /\
  (exists l' r, invoke gtags path now p (LogSetTag i k v) = ARet (mkPay ms (a ++ l' :: b)) r /\ same_origin l l' /\ l_value l' = l_value l /\ l_fields l' = l_fields l) /\
  (exists l' r, invoke gtags path now p (LogRemoveTag i k) = ARet (mkPay ms (a ++ l' :: b)) r /\ same_origin l l' /\ l_value l' = l_value l /\ l_fields l' = l_fields l).
Proof.
  intros Q L gtags path now a l b ms i k v ks vs p F H Hk Hv. subst p. cbn [invoke]. rewrite Hk, Hv, !(with_log_in a l b ms i) by assumption.
  split; [reflexivity|]. split; [reflexivity|]. split; [now rewrite set_log_in by assumption|]. split; [|split; [|split]].
  - rewrite set_log_in by assumption. do 2 eexists. split; [reflexivity|]. unfold same_origin, l_set_fields. cbn [l_time l_path l_value l_tags l_fields].
    do 3 (split; [auto|]). split; [apply lopt_gives|]. split; [apply (alookup_ainsert_eq seqb seqb_eq)|]. intros k' Hk'. apply (alookup_ainsert_ne seqb seqb_eq). auto.
  - eexists. split; [reflexivity|apply lopt_gives].
  - destruct (insert_tag ks vs (l_tags l)) as [tg old]. rewrite set_log_in by assumption. do 2 eexists. split; [reflexivity|]. unfold same_origin. cbn. auto 10.
  - destruct (remove_tag ks (l_tags l)) as [tg old]. rewrite set_log_in by assumption. do 2 eexists. split; [reflexivity|]. unfold same_origin. cbn. auto 10.
Qed.
Example C92_ex : fits (mkPay [xm "a"; xm "b"; xm "c"] [xl "x"]) /\ picks (to_integer (XInt (-2))) [xm "a"] (xm "b") [xm "c"] /\
  picks_none (to_integer (XInt 0)) 3 /\ picks_none (to_integer (XInt 4)) 3 /\
  xinvoke (mkPay [xm "a"; xm "b"; xm "c"] []) (SetMetricName (XInt (-2)) (XStr "z")) = ARet (mkPay [xm "a"; xm "z"; xm "c"] []) XNil /\
  xinvoke (mkPay [xm "a"; xm "b"; xm "c"] []) (MetricName (XInt 3)) = ARet (mkPay [xm "a"; xm "b"; xm "c"] []) (XStr "c") /\
  xinvoke (mkPay [xm "a"] []) (MetricName (XInt (-2))) = APanic.
Proof.
  split; [split; cbn; lia|]. split; [right; reflexivity|]. split; [left; reflexivity|]. split; [right; left; reflexivity|]. repeat split; reflexivity.
Qed.
Print Assumptions C92_refuted. Print Assumptions C92_metric_partial. Print Assumptions C92_log_partial.

(** ** C93: metric_query(payload, i, q) is the quantile q of the point i.  False: q is
    not looked at, and i is taken for the quantile too; a quantile between 0 and 1
    in its place names no point, so it panics. *)
Theorem C93_refuted : exists (Q : QLib) (L : LuaLib) (p : payload) (i q : lval) (m : telemetry) (c : ckms) (s v w : f64) (n : N),
  picks (to_integer i) [] m [] /\ p = mkPay [m] [] /\ t_value m = VQuant c s /\ c_query c (to_number q) = Some (n, v) /\ w <> v /\
  forall gtags path now, invoke gtags path now p (MetricQuery i q) = ARet p (lnum w).
Proof.
  exists xQ, xL, (mkPay [pt "s" (VQuant ([fofZ 3; fofZ 4] : @ckms xQ) (fofZ 7)) false None 5] []), (XInt 1), (XFlt (fratio 1 2)),
    (pt "s" (VQuant ([fofZ 3; fofZ 4] : @ckms xQ) (fofZ 7)) false None 5), [fofZ 3; fofZ 4], (fofZ 7), (fofZ 4), (fofZ 3), 1%N.
  split; [left; reflexivity|]. repeat split; try reflexivity. discriminate.
Qed.
(** whatever is given for q *)
Theorem C93_q_ignored : forall (Q : QLib) (L : LuaLib) (gtags : tagmap) (path : string) (now : Z) (p : payload) (i q q' : lval),
  invoke gtags path now p (MetricQuery i q) = invoke gtags path now p (MetricQuery i q').
Proof. reflexivity. Qed.
Theorem C93_refuted_quantile : forall (Q : QLib) (L : LuaLib) (gtags : tagmap) (path : string) (now : Z) (p : payload) (q x : lval),
  fits p -> to_integer q = 0%Z -> invoke gtags path now p (MetricQuery q x) = APanic.
Proof. intros Q L gtags path now p q x F H. apply with_metric_out; [left; exact H|exact F]. Qed.
(** Proved: the number i as a quantile of the point i; with 1, the largest sample of
    the first point. *)
Theorem C93_query_partial : forall (Q : QLib) (L : LuaLib) (gtags : tagmap) (path : string) (now : Z) (a : list telemetry) (m : telemetry) (b : list telemetry) (ls : list logline) (i x : lval),
  let p := mkPay (a ++ m :: b) ls in
  fits p -> picks (to_integer i) a m b ->
  invoke gtags path now p (MetricQuery i x) =
    ARet p (match t_value m with
            | VQuant c _ => match c_query c (to_number i) with Some (_, v) => lnum v | None => lnil end
            | _ => lnil
            end).
Proof.
  intros Q L gtags path now a m b ls i x p F H. subst p. cbn [invoke]. rewrite with_metric_in by assumption. unfold t_query, value_query.
  destruct (t_value m) as [y|y|h|c s]; try reflexivity. destruct (c_query c (to_number i)) as [[n v]|]; reflexivity.
Qed.
Example C93_ex : let q := pt "s" (VQuant ([fofZ 3] : @ckms xQ) (fofZ 3)) false None 5 in
  xinvoke (mkPay [q] []) (MetricQuery (XInt 1) (XFlt (fratio 1 2))) = ARet (mkPay [q] []) (XFlt (fofZ 3)) /\
  xinvoke (mkPay [q] []) (MetricQuery (XFlt (fratio 1 2)) XNil) = APanic.
Proof. split; reflexivity. Qed.
Print Assumptions C93_refuted. Print Assumptions C93_q_ignored. Print Assumptions C93_refuted_quantile. Print Assumptions C93_query_partial.

(** ** C94: what a script does not ask for does not change.  A script that only asks
    passes every event on as it came; no script can change the value or the time of
    a point, nor the time or the path of a line: what comes out is an input so
    preserved, or pushed. *)
Theorem C94_asking_changes_nothing : forall (Q : QLib) (L : LuaLib) (gtags : tagmap) (path : string) (now : Z) (P : program) (f f' : lfilter P) (e : event) (out : list event),
  (forall st func t, pr_fun P st func = Some t -> only asks t) -> (exists m, e = ETelemetry m) \/ (exists l, e = ELog l) ->
  lua_process gtags path now P f e = Some (f', out, None) -> out = [e].
Proof.
  intros Q L gtags path now P f f' e out A [[m ->]|[l ->]] H; cbn [lua_process] in H; unfold lua_call in H.
  - destruct (pr_fun P (lf_lua P f) "process_metric") as [t|] eqn:E; [|discriminate].
    destruct (exec gtags path now (mkPay [m] []) t) as [[st [| |logs ms]]|] eqn:X; try discriminate.
    apply exec_asks in X as [-> ->]; [|eapply A; eauto]. injection H as _ <-. reflexivity.
  - destruct (pr_fun P (lf_lua P f) "process_log") as [t|] eqn:E; [|discriminate].
    destruct (exec gtags path now (mkPay [] [l]) t) as [[st [| |logs ms]]|] eqn:X; try discriminate.
    apply exec_asks in X as [-> ->]; [|eapply A; eauto]. injection H as _ <-. reflexivity.
Qed.
Theorem C94_measures_stay : forall (Q : QLib) (L : LuaLib) (gtags : tagmap) (path : string) (now : Z) (P : program) (f f' : lfilter P) (e : event) (out : list event),
  lua_process gtags path now P f e = Some (f', out, None) ->
  forall o, In o out ->
    match o with
    | ETelemetry m' => from_metric now (match e with ETelemetry m => [m] | _ => [] end) m'
    | ELog l' => from_log path now (match e with ELog l => [l] | _ => [] end) l'
    | _ => o = e
    end.
Proof.
  intros Q L gtags path now P f f' e out H.
  assert (C : forall st stack func ms ls st' stack' out', lua_call gtags path now P st stack func ms ls = Some (st', stack', out', None) ->
    forall o, In o out' -> match o with ETelemetry m' => from_metric now ms m' | ELog l' => from_log path now ls l' | _ => False end).
  { intros st stack func ms ls st' stack' out' X. unfold lua_call in X. destruct (pr_fun P st func) as [t|]; [|discriminate].
    destruct (exec gtags path now (mkPay ms ls) t) as [[s [| |logs mets]]|] eqn:E; try discriminate. injection X as _ _ <-.
    destruct (exec_good gtags path now t ms ls _ _ _ _ (start_good path now ms ls) E) as [Gm Gl].
    rewrite Forall_forall in Gm, Gl. intros o Ho. apply in_app_or in Ho as [Ho|Ho]; apply in_map_iff in Ho as (x & <- & Hx); auto. }
  destruct e as [m|l|idx| |r]; cbn [lua_process] in H.
  - destruct (lua_call _ _ _ _ _ _ _ _ _) as [[[[st stack] o'] err]|] eqn:E; [|discriminate]. injection H as _ -> ->.
    intros o Ho. specialize (C _ _ _ _ _ _ _ _ E o Ho). destruct o; auto; contradiction.
  - destruct (lua_call _ _ _ _ _ _ _ _ _) as [[[[st stack] o'] err]|] eqn:E; [|discriminate]. injection H as _ -> ->.
    intros o Ho. specialize (C _ _ _ _ _ _ _ _ E o Ho). destruct o; auto; contradiction.
  - destruct (idx <=? lf_last P f)%N; [injection H as _ <-; intros o []|].
    destruct (lua_call _ _ _ _ _ _ _ _ _) as [[[[st stack] o'] err]|] eqn:E; [|discriminate]. injection H as _ <- ->.
    intros o Ho. apply in_app_or in Ho as [Ho|[<-|[]]]; [|reflexivity]. specialize (C _ _ _ _ _ _ _ _ E o Ho). destruct o; auto; contradiction.
  - injection H as _ <-. intros o [<-|[]]. reflexivity.
  - injection H as _ <-. intros o [<-|[]]. reflexivity.
Qed.
Definition xask : @lua xL nat := Call (MetricName (XInt 1)) (fun o => Call (MetricTagValue (XInt (-1)) (XStr "env")) (fun _ => Return 1)).
Definition xren : @lua xL nat := Call (SetMetricName (XInt 1) (XStr "new")) (fun o => Call (PushMetric (XStr "extra") (XInt 7)) (fun _ => Return 2)).
Definition xprog (t : lua nat) : @program xL := mkProgram nat (fun _ f => if seqb f "process_metric" then Some t else None).
Example C94_ex : only asks xask /\
  @lua_process xQ xL [] "flt" 9 (xprog xask) (mkLF (xprog xask) 0 0 0) (ETelemetry (xm "a")) = Some (mkLF (xprog xask) 1 0 0, [ETelemetry (xm "a")], None) /\
  @lua_process xQ xL [] "flt" 9 (xprog xren) (mkLF (xprog xren) 0 0 0) (ETelemetry (xm "a")) =
    Some (mkLF (xprog xren) 2 0 0, [ETelemetry (xm "new"); ETelemetry (pt "extra" (VSet (fofZ 7)) false None 9)], None).
Proof. split; [cbn; auto|]. split; reflexivity. Qed.
Print Assumptions C94_asking_changes_nothing. Print Assumptions C94_measures_stay.

(** ** C95: tags set by a script are the tags of the point.  metric_set_tag answers the
    old value and sets the new; metric_remove_tag answers the old value and removes
    it; metric_tag_value answers the value, or else the filter's; other tags stay. *)
Theorem C95_metric_tags : forall (Q : QLib) (L : LuaLib) (gtags : tagmap) (path : string) (now : Z) (a : list telemetry) (m : telemetry) (b : list telemetry) (ls : list logline) (i k v : lval) (ks vs : string),
  let p := mkPay (a ++ m :: b) ls in
  fits p -> picks (to_integer i) a m b -> to_str k = Some ks -> to_str v = Some vs -> otm_ok (t_tags m) ->
  (exists m' r, invoke gtags path now p (MetricSetTag i k v) = ARet (mkPay (a ++ m' :: b) ls) r /\ gives r (own (t_tags m) ks) /\
     own (t_tags m') ks = Some vs /\ forall k', k' <> ks -> own (t_tags m') k' = own (t_tags m) k') /\
  (exists m' r, invoke gtags path now p (MetricRemoveTag i k) = ARet (mkPay (a ++ m' :: b) ls) r /\ gives r (own (t_tags m) ks) /\
     own (t_tags m') ks = None /\ forall k', k' <> ks -> own (t_tags m') k' = own (t_tags m) k') /\
  (exists r, invoke gtags path now p (MetricTagValue i k) = ARet p r /\
     gives r (match own (t_tags m) ks with Some x => Some x | None => alookup seqb ks gtags end)).
Proof.
  intros Q L gtags path now a m b ls i k v ks vs p F H Hk Hv O. subst p. cbn [invoke]. rewrite Hk, Hv, !(with_metric_in a m b ls i) by assumption.
  split; [|split].
  - destruct (insert_tag ks vs (t_tags m)) as [tg old] eqn:E. rewrite set_metric_in by assumption. destruct (insert_own _ _ _ _ _ E) as (-> & E1 & E2).
    do 2 eexists. split; [reflexivity|]. split; [apply lopt_gives|]. split; assumption.
  - destruct (remove_tag ks (t_tags m)) as [tg old] eqn:E. rewrite set_metric_in by assumption. destruct (remove_own _ _ _ _ O E) as (-> & E1 & E2).
    do 2 eexists. split; [reflexivity|]. split; [apply lopt_gives|]. split; assumption.
  - eexists. split; [reflexivity|]. rewrite get_own. apply lopt_gives.
Qed.
Theorem C95_log_tags : forall (Q : QLib) (L : LuaLib) (gtags : tagmap) (path : string) (now : Z) (a : list logline) (l : logline) (b : list logline) (ms : list telemetry) (i k v : lval) (ks vs : string),
  let p := mkPay ms (a ++ l :: b) in
  fits p -> picks (to_integer i) a l b -> to_str k = Some ks -> to_str v = Some vs -> otm_ok (l_tags l) ->
  (exists l' r, invoke gtags path now p (LogSetTag i k v) = ARet (mkPay ms (a ++ l' :: b)) r /\ gives r (own (l_tags l) ks) /\
     own (l_tags l') ks = Some vs /\ forall k', k' <> ks -> own (l_tags l') k' = own (l_tags l) k') /\
  (exists l' r, invoke gtags path now p (LogRemoveTag i k) = ARet (mkPay ms (a ++ l' :: b)) r /\ gives r (own (l_tags l) ks) /\
     own (l_tags l') ks = None /\ forall k', k' <> ks -> own (l_tags l') k' = own (l_tags l) k') /\
  (exists r, invoke gtags path now p (LogTagValue i k) = ARet p r /\
     gives r (match own (l_tags l) ks with Some x => Some x | None => alookup seqb ks gtags end)).
Proof.
  intros Q L gtags path now a m b ls i k v ks vs p F H Hk Hv O. subst p. cbn [invoke]. rewrite Hk, Hv, !(with_log_in a m b ls i) by assumption.
  split; [|split].
  - destruct (insert_tag ks vs (l_tags m)) as [tg old] eqn:E. rewrite set_log_in by assumption. destruct (insert_own _ _ _ _ _ E) as (-> & E1 & E2).
    do 2 eexists. split; [reflexivity|]. split; [apply lopt_gives|]. split; assumption.
  - destruct (remove_tag ks (l_tags m)) as [tg old] eqn:E. rewrite set_log_in by assumption. destruct (remove_own _ _ _ _ O E) as (-> & E1 & E2).
    do 2 eexists. split; [reflexivity|]. split; [apply lopt_gives|]. split; assumption.
  - eexists. split; [reflexivity|]. rewrite get_own. apply lopt_gives.
Qed.
(** a call without the key or the value does nothing *)
Theorem C95_missing_argument : forall (Q : QLib) (L : LuaLib) (gtags : tagmap) (path : string) (now : Z) (p : payload) (i k : lval),
  Forall (fun c => invoke gtags path now p c = ARet p lnil)
    [MetricSetTag i lnil k; MetricSetTag i k lnil; MetricRemoveTag i lnil; LogSetTag i lnil k; LogSetTag i k lnil; LogRemoveTag i lnil;
     LogSetField i lnil k; LogSetField i k lnil; LogSetValue i lnil].
Proof.
  intros Q L gtags path now p i k. repeat constructor; cbn [invoke]; rewrite ?to_str_nil; try reflexivity; destruct (to_str k); reflexivity.
Qed.
Example C95_ex : let m := pt "a" (VSum fone) false (Some [("k", "1"); ("j", "2")]) 5 in otm_ok (t_tags m) /\
  xinvoke (mkPay [m] []) (MetricSetTag (XInt 1) (XStr "k") (XStr "9")) = ARet (mkPay [pt "a" (VSum fone) false (Some [("k", "9"); ("j", "2")]) 5] []) (XStr "1") /\
  xinvoke (mkPay [m] []) (MetricRemoveTag (XInt 1) (XStr "k")) = ARet (mkPay [pt "a" (VSum fone) false (Some [("j", "2")]) 5] []) (XStr "1") /\
  xinvoke (mkPay [m] []) (MetricTagValue (XInt 1) (XStr "env")) = ARet (mkPay [m] []) (XStr "prod").
Proof. split; [repeat constructor; cbn; intuition discriminate|]. repeat split; reflexivity. Qed.
Print Assumptions C95_metric_tags. Print Assumptions C95_log_tags. Print Assumptions C95_missing_argument.

(** ** C96: push_metric and push_log add, at the end, one point or line: as named, with
    the filter's tags, now; a point is a Set (the last value counts). *)
Theorem C96_pushes : forall (Q : QLib) (L : LuaLib) (gtags : tagmap) (path : string) (now : Z) (p : payload) (n v : lval) (s : string),
  to_str n = Some s ->
  (exists m, invoke gtags path now p (PushMetric n v) = ARet (mkPay (p_metrics p ++ [m]) (p_logs p)) lnil /\
     t_name m = s /\ t_value m = VSet (to_number v) /\ t_timestamp m = now /\ t_persist m = false /\ forall k, own (t_tags m) k = alookup seqb k gtags) /\
  (exists l, invoke gtags path now p (PushLog n) = ARet (mkPay (p_metrics p) (p_logs p ++ [l])) lnil /\
     l_value l = s /\ l_path l = path /\ l_time l = now /\ l_fields l = [] /\ forall k, own (l_tags l) k = alookup seqb k gtags).
Proof.
  intros Q L gtags path now p n v s H. cbn [invoke]. rewrite H, harden_push. split; eexists; (split; [reflexivity|]); cbn;
    do 4 (split; [reflexivity|]); intros k; destruct gtags as [|x r]; reflexivity.
Qed.
(** without a name or a text, nothing is added *)
Theorem C96_nameless : forall (Q : QLib) (L : LuaLib) (gtags : tagmap) (path : string) (now : Z) (p : payload) (n v : lval),
  to_str n = None -> invoke gtags path now p (PushMetric n v) = ARet p lnil /\ invoke gtags path now p (PushLog n) = ARet p lnil.
Proof. intros Q L gtags path now p n v H. cbn [invoke]. rewrite H. split; reflexivity. Qed.
Example C96_ex :
  xinvoke (mkPay [xm "a"] []) (PushMetric (XStr "n") (XInt 3)) = ARet (mkPay [xm "a"; pt "n" (VSet (fofZ 3)) false (Some [("env", "prod")]) 9] []) XNil /\
  xinvoke (mkPay [] []) (PushLog (XStr "n")) = ARet (mkPay [] [mkLog 9 "flt" "n" [] (Some [("env", "prod")])]) XNil /\
  xinvoke (mkPay [xm "a"] []) (PushMetric XNil (XInt 3)) = ARet (mkPay [xm "a"] []) XNil.
Proof. repeat split; reflexivity. Qed.
Print Assumptions C96_pushes. Print Assumptions C96_nameless.

(** ** C97: what a script pushes comes out in the order it was pushed.  False: lines
    come before points. *)
Theorem C97_refuted : exists (Q : QLib) (L : LuaLib) (P : program) (f f' : lfilter P) (cs : list call) (out : list event),
  Forall pushes cs /\ pr_fun P (lf_lua P f) "tick" = Some (does cs (lf_lua P f)) /\
  lua_process [] "" 0 P f (ETimerFlush 1) = Some (f', out, None) /\ out <> flat_map (pushed [] "" 0) cs ++ [ETimerFlush 1].
Proof.
  set (cs := [@PushMetric xL (XStr "a") (XInt 1); @PushLog xL (XStr "b")]).
  set (P := mkProgram unit (fun st _ => Some (@does xL unit cs st))).
  exists xQ, xL, P, (mkLF P tt 0 0), (mkLF P tt 0 1), cs, [ELog (mkLog 0 "" "b" [] None); ETelemetry (pt "a" (VSet (fofZ 1)) false None 0); ETimerFlush 1].
  split; [repeat constructor|]. split; [reflexivity|]. split; [reflexivity|]. discriminate.
Qed.
(** Proved for the lines and for the points each. *)
Theorem C97_order_partial : forall (Q : QLib) (L : LuaLib) (gtags : tagmap) (path : string) (now : Z) (P : program) (f : lfilter P) (cs : list call) (idx : N),
  Forall pushes cs -> pr_fun P (lf_lua P f) "tick" = Some (does cs (lf_lua P f)) -> (lf_last P f < idx)%N ->
  exists f' out, lua_process gtags path now P f (ETimerFlush idx) = Some (f', out ++ [ETimerFlush idx], None) /\
    filter is_line out = filter is_line (flat_map (pushed gtags path now) cs) /\
    filter is_point out = filter is_point (flat_map (pushed gtags path now) cs) /\
    List.length out = List.length (flat_map (pushed gtags path now) cs).
Proof.
  intros Q L gtags path now P f cs idx C E Hi. cbn [lua_process]. destruct (N.leb_spec idx (lf_last P f)) as [X|_]; [lia|]. unfold lua_call. rewrite E.
  assert (G : forall ms ls, exists ms' ls', exec gtags path now (mkPay ms ls) (does cs (lf_lua P f)) = Some (lf_lua P f, LDone (ls ++ ls') (ms ++ ms')) /\
     filter is_line (flat_map (pushed gtags path now) cs) = map ELog ls' /\ filter is_point (flat_map (pushed gtags path now) cs) = map ETelemetry ms' /\
     List.length (flat_map (pushed gtags path now) cs) = List.length ls' + List.length ms').
  { clear E. induction C as [|c cs Hc _ IH]; intros ms ls; [exists [], []; cbn; now rewrite !app_nil_r|].
    cbn [does exec flat_map]. rewrite !filter_app, app_length. destruct c; try contradiction; cbn [invoke pushed].
    - destruct (to_str v) as [s|]; cbn [p_metrics p_logs].
      + match goal with |- context [exec gtags path now (mkPay ?a (?b ++ [?x])) _] => destruct (IH a (b ++ [x])) as (ms' & ls' & -> & E1 & E2 & E3); exists ms', (x :: ls') end.
        rewrite <- app_assoc. split; [reflexivity|]. rewrite E1, E2, E3. cbn. auto.
      + destruct (IH ms ls) as (ms' & ls' & -> & E1 & E2 & E3). exists ms', ls'. rewrite E1, E2, E3. cbn. auto.
    - destruct (to_str name) as [s|]; rewrite ?harden_push; cbn [p_metrics p_logs].
      + match goal with |- context [exec gtags path now (mkPay (?a ++ [?x]) ?b) _] => destruct (IH (a ++ [x]) b) as (ms' & ls' & -> & E1 & E2 & E3); exists (x :: ms'), ls' end.
        rewrite <- app_assoc. split; [reflexivity|]. rewrite E1, E2, E3. cbn. split; [reflexivity|]. split; [reflexivity|]. lia.
      + destruct (IH ms ls) as (ms' & ls' & -> & E1 & E2 & E3). exists ms', ls'. rewrite E1, E2, E3. cbn. auto. }
  destruct (G [] []) as (ms' & ls' & -> & E1 & E2 & E3). cbn [app]. exists (mkLF P (lf_lua P f) (lf_stack P f) idx), (map ELog ls' ++ map ETelemetry ms').
  split; [reflexivity|]. rewrite !filter_app, E1, E2, E3, app_length, !map_length.
  assert (A1 : forall l, filter is_line (map (@ELog Q) l) = map ELog l) by (induction l; cbn; congruence).
  assert (A2 : forall l, filter is_line (map (@ETelemetry Q) l) = []) by (induction l; cbn; congruence).
  assert (A3 : forall l, filter is_point (map (@ELog Q) l) = []) by (induction l; cbn; congruence).
  assert (A4 : forall l, filter is_point (map (@ETelemetry Q) l) = map ETelemetry l) by (induction l; cbn; congruence).
  rewrite A1, A2, A3, A4, app_nil_r. auto.
Qed.
Example C97_ex : let cs := [@PushMetric xL (XStr "a") (XInt 1); @PushLog xL (XStr "b"); @PushMetric xL (XStr "c") (XInt 2)] in
  let P := mkProgram unit (fun st _ => Some (@does xL unit cs st)) in
  Forall pushes cs /\
  @lua_process xQ xL [] "f" 0 P (mkLF P tt 0 0) (ETimerFlush 1) =
    Some (mkLF P tt 0 1, [ELog (mkLog 0 "f" "b" [] None); ETelemetry (pt "a" (VSet (fofZ 1)) false None 0); ETelemetry (pt "c" (VSet (fofZ 2)) false None 0); ETimerFlush 1], None).
Proof. split; [repeat constructor|reflexivity]. Qed.
Print Assumptions C97_refuted. Print Assumptions C97_order_partial.

(** ** C98: a script may fail any number of times.  Every failure leaves one value on
    Lua's stack, of which Lua warrants room for 20 (LUA_MINSTACK) to those who, as
    here, do not ask for more: false for every bound. *)
Theorem C98_refuted : exists (Q : QLib) (L : LuaLib) (P : program) (st : pr_state P), forall bound : nat,
  exists (evs : list event) f' outs, lua_run [] "" 0 P (mkLF P st 0 0) evs = Some (f', outs) /\ (N.of_nat bound < lf_stack P f')%N.
Proof.
  exists xQ, xL, (mkProgram unit (fun _ _ => None)), tt. intros bound.
  assert (G : forall n s, exists outs, lua_run [] "" 0 (mkProgram unit (fun _ _ => None)) (mkLF (mkProgram unit (fun _ _ => None)) tt s 0) (repeat (ETelemetry (xm "a")) n) =
    Some (mkLF (mkProgram unit (fun _ _ => None)) tt (s + N.of_nat n) 0, outs)).
  { induction n as [|n IH]; intros s; [exists []; cbn; now rewrite N.add_0_r|]. cbn [repeat lua_run lua_process]. cbn [lua_call pr_fun lf_lua lf_stack lf_last].
    replace (s + N.of_nat (Datatypes.S n))%N with (s + 1 + N.of_nat n)%N by lia. destruct (IH (s + 1)%N) as (outs & ->). eexists. reflexivity. }
  destruct (G (Datatypes.S bound) 0%N) as (outs & E). exists (repeat (ETelemetry (xm "a")) (Datatypes.S bound)). do 2 eexists. split; [exact E|]. cbn [lf_stack]. lia.
Qed.
(** exactly one for each failure, none for what succeeds *)
Theorem C98_stack_counts_failures : forall (Q : QLib) (L : LuaLib) (gtags : tagmap) (path : string) (now : Z) (P : program) (evs : list event) (f f' : lfilter P) outs,
  lua_run gtags path now P f evs = Some (f', outs) -> lf_stack P f' = (lf_stack P f + failures outs)%N.
Proof.
  intros Q L gtags path now P. unfold failures. induction evs as [|e evs IH]; intros f f' outs H; cbn [lua_run] in H; [injection H as <- <-; cbn; lia|].
  destruct (lua_process gtags path now P f e) as [[[f1 out] err]|] eqn:E; [|discriminate].
  destruct (lua_run gtags path now P f1 evs) as [[f2 outs']|] eqn:R; [|discriminate]. injection H as <- <-. rewrite (IH _ _ _ R). cbn [filter snd].
  assert (C : forall st stack func ms ls st' stack' out' err', lua_call gtags path now P st stack func ms ls = Some (st', stack', out', err') ->
     stack' = (stack + match err' with Some _ => 1 | None => 0 end)%N).
  { intros st stack func ms ls st' stack' out' err' X. unfold lua_call in X. destruct (pr_fun P st func) as [t|]; [|injection X as <- <- <- <-; reflexivity].
    destruct (exec gtags path now (mkPay ms ls) t) as [[s [| |logs mets]]|]; try discriminate; injection X as <- <- <- <-; try reflexivity. lia. }
  assert (Hs : lf_stack P f1 = (lf_stack P f + match err with Some _ => 1 | None => 0 end)%N).
  { destruct e as [m|l|idx| |r]; cbn [lua_process] in E.
    - destruct (lua_call _ _ _ _ _ _ _ _ _) as [[[[st stack] o'] err']|] eqn:X; [|discriminate]. injection E as <- _ <-. exact (C _ _ _ _ _ _ _ _ _ X).
    - destruct (lua_call _ _ _ _ _ _ _ _ _) as [[[[st stack] o'] err']|] eqn:X; [|discriminate]. injection E as <- _ <-. exact (C _ _ _ _ _ _ _ _ _ X).
    - destruct (idx <=? lf_last P f)%N; [injection E as <- _ <-; lia|].
      destruct (lua_call _ _ _ _ _ _ _ _ _) as [[[[st stack] o'] err']|] eqn:X; [|discriminate]. injection E as <- _ <-. exact (C _ _ _ _ _ _ _ _ _ X).
    - injection E as <- _ <-. lia.
    - injection E as <- _ <-. lia. }
  rewrite Hs. destruct err; cbn [List.length]; lia.
Qed.
Example C98_ex : exists f' outs, @lua_run xQ xL [] "f" 0 (xprog xask) (mkLF (xprog xask) 0 0 0) [ETelemetry (xm "a"); ELog (xl "x"); ELog (xl "y")] = Some (f', outs) /\
  failures outs = 2%N /\ lf_stack (xprog xask) f' = 2%N.
Proof. do 2 eexists. split; [reflexivity|]. split; reflexivity. Qed.
Print Assumptions C98_refuted. Print Assumptions C98_stack_counts_failures.

(** ** C23 again: the filter of FiltersModel.v, whose scripts answer anything, is this
    one as long as it does not panic. *)
Theorem C23_payload_refines : forall (Q : QLib) (L : LuaLib) (gtags : tagmap) (path : string) (now : Z) (P : program) (f f' : lfilter P) (e : event) (out : list event) (err : option event),
  lua_process gtags path now P f e = Some (f', out, err) ->
  prog_process (as_script gtags path now P) path now (mkProg (S := as_script gtags path now P) (lf_lua P f) (lf_last P f)) e =
    (mkProg (S := as_script gtags path now P) (lf_lua P f') (lf_last P f'), out, err).
Proof.
  intros Q L gtags path now P f f' e out err H.
  assert (C : forall st stack func ms ls st' stack' out' err', lua_call gtags path now P st stack func ms ls = Some (st', stack', out', err') ->
     run_lua (as_script gtags path now P) path now st func ms ls = (st', out', err')).
  { intros st stack func ms ls st' stack' out' err' X. unfold lua_call in X. unfold run_lua. cbn [sc_call as_script]. destruct (pr_fun P st func) as [t|]; [|injection X as <- _ <- <-; reflexivity].
    destruct (exec gtags path now (mkPay ms ls) t) as [[s [| |logs mets]]|]; try discriminate; injection X as <- _ <- <-; reflexivity. }
  destruct e as [m|l|idx| |r]; cbn [lua_process] in H; cbn [prog_process pg_lua pg_last].
  - destruct (lua_call _ _ _ _ _ _ _ _ _) as [[[[st stack] o'] err']|] eqn:X; [|discriminate]. rewrite (C _ _ _ _ _ _ _ _ _ X). injection H as <- <- <-. reflexivity.
  - destruct (lua_call _ _ _ _ _ _ _ _ _) as [[[[st stack] o'] err']|] eqn:X; [|discriminate]. rewrite (C _ _ _ _ _ _ _ _ _ X). injection H as <- <- <-. reflexivity.
  - destruct (idx <=? lf_last P f)%N; [injection H as <- <- <-; reflexivity|].
    destruct (lua_call _ _ _ _ _ _ _ _ _) as [[[[st stack] o'] err']|] eqn:X; [|discriminate]. rewrite (C _ _ _ _ _ _ _ _ _ X). injection H as <- <- <-. reflexivity.
  - injection H as <- <- <-. reflexivity.
  - injection H as <- <- <-. reflexivity.
Qed.
Print Assumptions C23_payload_refines.
