(** * Properties C108-C112: the console sink. *)
From Verif Require Import Base BaseFacts TelemetryModel TelemetrySpec BucketsModel BucketsSpec BucketsProps ConsoleModel ConsoleSpec ConsoleProofs QExample.
Open Scope string_scope. Open Scope list_scope. Open Scope nat_scope.

(** for the examples: only times from zero on can be written *)
#[export] Instance xS : Show := {
  show_time z := if (z <? 0)%Z then None else Some (if (z =? 7)%Z then "07" else "T"); show_f f := if feqb f (fofZ 3) then "3" else if feqb f (fofZ 8) then "8" else "x";
  show_z z := if (z =? 10)%Z then "10" else "t"; show_n n := if (n =? 1)%N then "1" else "0" }.
Definition xline (z : Z) (v : string) (tg : option tagmap) : logline := mkLog z "p" v [] tg.
Definition xpt (n : string) (v : value) (tg : option tagmap) (ts : Z) : telemetry := mkTelemetry n v false tg ts None None.
Definition xh1 : list string -> N := fun l => N.of_nat (String.length (String.concat "" l)).

(** ** C108: each line is printed once, by the next flush (shutdown being the last
    one), in the order of delivery, with its tags and those of the sink it lacks. *)
Theorem C108_lines_printed_once : forall (Q : QLib) (S : Show) hfun w tags os1 os2 d1 d2 now all c,
  tm_ok tags -> Forall (fun l => otm_ok (l_tags l)) (lines_of os2) -> flushed os1 -> no_flush os2 ->
  c_run hfun (c_init w tags) (os1 ++ os2 ++ [CFlush d1 d2 now]) = (all, Some c) ->
  exists before ls ts, all = before ++ [printed d1 d2 ls ts] /\
    Forall2 (fun l row => exists tg, filled l tags tg /\ shows_line l tg row) (lines_of os2) ls.
Proof.
  intros Q S hfun w tags os1 os2 d1 d2 now all c Ht Hl Hf Hn E. destruct (last_flush hfun w tags os1 os2 d1 d2 now all c Ht Hl Hf Hn E) as (o & ls & b & E1 & F & _). eauto.
Qed.
Example C108_ex : fst (c_run xh1 (c_init 1 [("k", "d"); ("m", "e")])
  ([CLine (xline 7 "a" None); CFlush "D" "D" 0] ++ [CLine (xline 7 "b" (Some [("k", "o")])); CLine (xline 1 "c" None)] ++ [CFlush "E" "F" 0])) =
  [["Flushing lines: D"; "07 p: a k=d m=e"; "Flushing metrics: D"; "  sums:"; "  sets:"; "  summaries:"; "  histograms:"];
    ["Flushing lines: E"; "07 p: b k=o m=e"; "T p: c k=d m=e"; "Flushing metrics: F"; "  sums:"; "  sets:"; "  summaries:"; "  histograms:"]].
Proof. lazy. reflexivity. Qed.
Print Assumptions C108_lines_printed_once.

(** ** C109: a flush reports the aggregation, each series and bin once, in the section
    of its kind; what is not to persist is reported by one flush only. *)
Theorem C109_report : forall (Q : QLib) (S : Show) hfun w tags os1 os2 d1 d2 now all c,
  (0 < w)%Z -> no_collision hfun (points_of (os1 ++ os2)) -> tm_ok tags -> Forall (fun l => otm_ok (l_tags l)) (lines_of os2) -> flushed os1 -> no_flush os2 ->
  c_run hfun (c_init w tags) (os1 ++ os2 ++ [CFlush d1 d2 now]) = (all, Some c) ->
  exists before ls ts M, all = before ++ [printed d1 d2 ls ts] /\ run_spec w empty_map (bops (os1 ++ os2)) M /\ lists_map w ts M /\
    (Forall (fun t => t_persist t = false) (points_of (os1 ++ os2)) -> forall s k, M s k = merged (filter (here w s k) (points_of os2))).
Proof.
  intros Q S hfun w tags os1 os2 d1 d2 now all c Hw Hc Ht Hl Hf Hn E. destruct (last_flush hfun w tags os1 os2 d1 d2 now all c Ht Hl Hf Hn E) as (o & ls & b & E1 & _ & Eb).
  rewrite <- adds_bops in Hc. destruct (iter_lists hfun w _ b Hw Hc Eb) as (M & Hr & Hm). exists o, ls, (b_iter b), M. split; [exact E1|]. split; [exact Hr|]. split; [exact Hm|].
  intros Hp. exact (fresh_epoch hfun w os1 os2 M Hp Hf Hn Hr).
Qed.
Example C109_ex : fst (c_run xh1 (c_init 1 [])
  ([CPoint (xpt "a" (VSum (fofZ 1)) None 10); CFlush "D" "D" 0] ++
   [CPoint (xpt "a" (VSum (fofZ 1)) None 10); CPoint (xpt "bb" (VSet (fofZ 8)) None 10); CPoint (xpt "a" (VSum (fofZ 2)) None 10); CPoint (xpt "ccc" (VHist (mkXHist [fofZ 3] [1; 0]%N None)) None 10);
    CPoint (xpt "dddd" (VQuant [fofZ 3] fone) None 9)] ++ [CFlush "E" "F" 0])) =
  [["Flushing lines: D"; "Flushing metrics: D"; "  sums:"; "    a(10): x"; "  sets:"; "  summaries:"; "  histograms:"];
    ["Flushing lines: E"; "Flushing metrics: F"; "  sums:"; "    a(10): 3"; "  sets:"; "    bb(10): 8"; "  summaries:";
     "    dddd: min 3"; "    dddd: max 3"; "    dddd: 50 3"; "    dddd: 90 3"; "    dddd: 99 3"; "    dddd: 999 3"; "  histograms:"; "    ccc_3(10): 1"; "    ccc_pos_inf(10): 0"]].
Proof. lazy. reflexivity. Qed.
Print Assumptions C109_report.

(** ** C110: the report tells the series apart.  False: it shows no tags of points, and
    no times of summaries. *)
Definition xtwo (host : string) (ts : Z) : list (@cop xQ) :=
  [CPoint (xpt "n" (VSum (fofZ 3)) (Some [("host", host)]) 10); CPoint (xpt "s" (@VQuant xQ [fofZ 3] fone) None ts)].
Theorem C110_refuted : exists (Q : QLib) (S : Show) hfun os os',
  no_collision hfun (points_of os ++ points_of os') /\
  fst (c_run hfun (c_init 1 []) (os ++ [CFlush "D" "D" 0])) = fst (c_run hfun (c_init 1 []) (os' ++ [CFlush "D" "D" 0])) /\
  (exists p, In p (points_of os) /\ t_name p = "n" /\ forall p', In p' (points_of os') -> t_tags p' <> t_tags p) /\
  (exists p, In p (points_of os) /\ t_name p = "s" /\ forall p', In p' (points_of os') -> t_name p' = "s" -> t_timestamp p' <> t_timestamp p).
Proof.
  exists xQ, xS, (fun l => match l with [_; _; v] => if seqb v "a" then 1%N else 2%N | _ => 3%N end),
    (xtwo "a" 10), (xtwo "b" 11).
  split; [intros a b Ha Hb; cbn in Ha, Hb; destruct Ha as [<-|[<-|[<-|[<-|[]]]]], Hb as [<-|[<-|[<-|[<-|[]]]]]; intros E; try reflexivity; exfalso; vm_compute in E; discriminate|].
  split; [lazy; reflexivity|]. split; eexists.
  - split; [left; reflexivity|]. split; [reflexivity|]. intros p' [<-|[<-|[]]]; discriminate.
  - split; [right; left; reflexivity|]. split; [reflexivity|]. intros p' [<-|[<-|[]]]; [discriminate|intros _; discriminate].
Qed.
Print Assumptions C110_refuted.

(** ** C111: the tags of the sink overwrite those of the event, as ConsoleConfig
    says.  False: where both have a key the line's own value is printed, for every
    line, and the sink's only where the line has none. *)
Theorem C111_refuted : forall (Q : QLib) (S : Show) hfun w tags l d1 d2 now all c k v own,
  tm_ok tags -> otm_ok (l_tags l) -> l_tags l = Some own -> In (k, v) own -> (exists v', In (k, v') tags /\ v' <> v) ->
  c_run hfun (c_init w tags) [CLine l; CFlush d1 d2 now] = (all, Some c) ->
  exists tg row ts, all = [printed d1 d2 [row] ts] /\ shows_line l tg row /\ In (k, v) tg /\ forall v', In (k, v') tg -> v' = v.
Proof.
  intros Q S hfun w tags l d1 d2 now all c k v own Ht Ho El Hv _ E.
  destruct (last_flush hfun w tags [] [CLine l] d1 d2 now all c Ht) as (o & ls & b & E1 & F & _).
  - constructor; [exact Ho|constructor].
  - left; reflexivity.
  - repeat constructor.
  - exact E.
  - cbn in F. inversion F as [|x row l1 l2 (tg & [Hn Hf] & Hs) F2]; subst. inversion F2; subst.
    cbn in E. destruct (c_flush d1 d2 now _) as [rows [c1|]]; [|discriminate]. injection E as E _. destruct o as [|o1 o]; [|destruct o; discriminate].
    exists tg, row, (b_iter b). split; [reflexivity|]. split; [exact Hs|]. assert (Hin : In (k, v) tg) by (apply Hf; rewrite El; left; exact Hv).
    split; [exact Hin|]. intros v' Hv'. clear -Hn Hin Hv'. induction tg as [|[k0 v0] tg IH]; [destruct Hin|]. cbn in Hn. inversion Hn as [|? ? Hx Hn']; subst.
    destruct Hin as [E1|Hin], Hv' as [E2|Hv'].
    + congruence.
    + exfalso. injection E1 as -> _. apply Hx. apply (in_map fst) in Hv'. exact Hv'.
    + exfalso. injection E2 as -> _. apply Hx. apply (in_map fst) in Hin. exact Hin.
    + apply (IH Hn' Hin Hv').
Qed.
Example C111_ex : fst (c_run xh1 (c_init 1 [("k", "sink")]) [CLine (xline 7 "b" (Some [("k", "own")])); CFlush "E" "F" 0]) =
  [["Flushing lines: E"; "07 p: b k=own"; "Flushing metrics: F"; "  sums:"; "  sets:"; "  summaries:"; "  histograms:"]].
Proof. lazy. reflexivity. Qed.
Print Assumptions C111_refuted.

(** ** C112: the sink survives whatever is delivered.  False: a line with a time that
    cannot be written kills it at the flush, and with it the lines behind are lost;
    with a bin width of 0, which the configuration accepts, the second point of a
    series does. *)
Theorem C112_refuted : exists (Q : QLib) (S : Show) hfun,
  (exists l1 l2, c_run hfun (c_init 1 []) [CLine l1; CLine l2; CFlush "D" "D" 0] = ([["Flushing lines: D"]], None)) /\
  (exists t, c_run hfun (c_init 0 []) [CPoint t; CPoint t] = ([], None)).
Proof. exists xQ, xS, xh1. split; [exists (xline (-1) "a" None), (xline 1 "b" None); reflexivity|exists (xpt "a" (VSum fone) None 1); reflexivity]. Qed.
(** What holds: with another bin width and times that can be written it survives every
    history.  Missing: the rest. *)
Theorem C112_survives_partial : forall (Q : QLib) (S : Show) hfun w tags os, w <> 0%Z -> printable os ->
  exists all c, c_run hfun (c_init w tags) os = (all, Some c).
Proof. intros Q S hfun w tags os Hw Hp. destruct (run_survives hfun w tags os Hw Hp) as (o & c & E & _). eauto. Qed.
Example C112_ex : printable [CPoint (xpt "a" (VSum fone) None (-5)); CLine (xline 7 "b" None); CPoint (xpt "a" (VSum fone) None (-5)); CFlush "E" "F" 0].
Proof. constructor; [discriminate|constructor]. Qed.
Print Assumptions C112_refuted.
Print Assumptions C112_survives_partial.
