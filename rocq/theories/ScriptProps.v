(** * Property C120: what a programmable filter asks of its script. *)
From Verif Require Import Base BaseFacts TelemetryModel FlowModel FlowSpec FlowProofs FiltersModel FiltersSpec FiltersProofs QExample TelemetryProps FlowProps FiltersProps ScriptSpec.
Open Scope string_scope. Open Scope list_scope. Open Scope nat_scope.

Section P.
Context `{Q : QLib}.
Variable S : script.
Variable path : string.
Variable now : Z.
Notation F := (prog_filt S path now).
Lemma filter_data l m : filter is_data (map ELog l ++ map ETelemetry m) = map ELog l ++ map ETelemetry m.
Proof. rewrite filter_app. f_equal; [induction l as [|x l IH]|induction m as [|x m IH]]; cbn; congruence. Qed.
Lemma script_calls : forall evs st last, exists calls,
  pg_lua (final F (mkProg st last) evs) = after_calls S st calls /\
  filter is_data (outputs F (mkProg st last) evs) = calls_yield S path now st calls /\
  filter (fun c => negb (is_tick c)) calls = asked evs /\
  Forall (fun c => is_tick c = true -> c = ("tick", [], [])) calls /\
  (tick_succeeds S -> List.length (filter is_tick calls) = List.length (records last (flush_indices evs))).
Proof.
  induction evs as [|e evs IH]; intros st last; [exists []; cbn; auto 6|].
  destruct e as [t|l|i| |r].
  - destruct (sc_call S st "process_metric" [t] []) as [st' o] eqn:Ec. destruct (IH st' last) as (calls & H1 & H2 & H3 & H4 & H5). exists (("process_metric", [t], []) :: calls).
    cbn [final outputs f_process prog_filt prog_process pg_lua pg_last after_calls calls_yield]. unfold run_lua. rewrite Ec. cbn [fst snd].
    split; [destruct o; exact H1|]. split; [|split; [transitivity (("process_metric", [t], []) :: filter (fun c => negb (is_tick c)) calls); [reflexivity|rewrite H3; reflexivity]|split; [constructor; [discriminate|exact H4]|exact H5]]].
    rewrite <- H2. destruct o; cbn [List.app]; [reflexivity..|]. rewrite filter_app, filter_data. reflexivity.
  - destruct (sc_call S st "process_log" [] [l]) as [st' o] eqn:Ec. destruct (IH st' last) as (calls & H1 & H2 & H3 & H4 & H5). exists (("process_log", [], [l]) :: calls).
    cbn [final outputs f_process prog_filt prog_process pg_lua pg_last after_calls calls_yield]. unfold run_lua. rewrite Ec. cbn [fst snd].
    split; [destruct o; exact H1|]. split; [|split; [transitivity (("process_log", [], [l]) :: filter (fun c => negb (is_tick c)) calls); [reflexivity|rewrite H3; reflexivity]|split; [constructor; [discriminate|exact H4]|exact H5]]].
    rewrite <- H2. destruct o; cbn [List.app]; [reflexivity..|]. rewrite filter_app, filter_data. reflexivity.
  - cbn [final outputs f_process prog_filt prog_process pg_lua pg_last]. destruct (i <=? last)%N eqn:Ei.
    + destruct (IH st last) as (calls & H1 & H2 & H3 & H4 & H5). exists calls. split; [exact H1|]. split; [exact H2|]. split; [exact H3|]. split; [exact H4|].
      intros Ht. rewrite (H5 Ht). cbn. replace (last <? i)%N with false by (symmetry; apply N.ltb_ge; apply N.leb_le; exact Ei). reflexivity.
    + unfold run_lua. destruct (sc_call S st "tick" [] []) as [st' o] eqn:Ec.
      destruct (IH st' (match o with LDone _ _ => i | _ => last end)) as (calls & H1 & H2 & H3 & H4 & H5). exists (("tick", [], []) :: calls). cbn [after_calls calls_yield]. rewrite Ec. cbn [fst snd].
      split; [destruct o; exact H1|]. split; [|split; [cbn; exact H3|split; [constructor; [reflexivity|exact H4]|]]].
      * destruct o; cbn [List.app]; rewrite <- H2; [reflexivity..|]. rewrite !filter_app. cbn [filter is_data List.app]. rewrite app_nil_r, <- filter_app, filter_data. reflexivity.
      * intros Ht. destruct (Ht st [] []) as (lg & mt & Hk). rewrite Ec in Hk. cbn [snd] in Hk. subst o. cbn [filter is_tick fst seqb]. replace (is_tick ("tick", [], [])) with true by reflexivity. cbn [List.length]. rewrite (H5 Ht).
        cbn. replace (last <? i)%N with true by (symmetry; apply N.ltb_lt; apply N.leb_gt; exact Ei). reflexivity.
  - destruct (IH st last) as (calls & H). exists calls. exact H.
  - destruct (IH st last) as (calls & H). exists calls. exact H.
Qed.
End P.

(** ** C120: every line and point is one call of the script, whether earlier calls failed
    or not.  The script's state is what all calls together make of it (those that failed
    keep what they changed), and downstream gets what each call returned or one report of
    its failure, in the order of the calls.  The other calls are ticks, one for each flush
    with a new index as long as ticks succeed. *)
Theorem C120_every_call : forall (Q : QLib) (S : script) path now st evs, exists calls,
  pg_lua (final (prog_filt S path now) (mkProg st 0%N) evs) = after_calls S st calls /\
  filter is_data (outputs (prog_filt S path now) (mkProg st 0%N) evs) = calls_yield S path now st calls /\
  filter (fun c => negb (is_tick c)) calls = asked evs /\
  Forall (fun c => is_tick c = true -> c = ("tick", [], [])) calls /\
  (tick_succeeds S -> List.length (filter is_tick calls) = List.length (records 0 (flush_indices evs))).
Proof. intros Q S path now st evs. apply script_calls. Qed.
(** a script that counts its calls and fails on every second one *)
Definition xfails : @script xQ := mkScript nat (fun st f ms ls => (Datatypes.S st, if Nat.even st then LDone ls ms else LError)).
Example C120_ex :
  pg_lua (final (prog_filt xfails "p" 7) (mkProg (S := xfails) 0 0%N) [xt "a" 1; xt "b" 2; ETimerFlush 1; xt "c" 3]) = 4 /\
  outputs (prog_filt xfails "p" 7) (mkProg (S := xfails) 0 0%N) [xt "a" 1; xt "b" 2; xt "c" 3] = [xt "a" 1; report "p" "process_metric" 7; xt "c" 3].
Proof. split; reflexivity. Qed.
Print Assumptions C120_every_call.
