(** * Properties C88-C91: a connection of the graphite source. *)
From Verif Require Import Base BaseFacts TelemetryModel ParseModel ParseSpec ParseProofs GraphiteModel GraphiteSpec GraphiteProofs Utf8 QExample TelemetryProps ParseProps.
Open Scope string_scope. Open Scope list_scope. Open Scope nat_scope.

(** words for the examples: pieces between spaces and line feeds *)
Fixpoint xsplit (cur : string) (bs : list N) : list string :=
  match bs with
  | [] => match cur with EmptyString => [] | _ => [cur] end
  | b :: r => if ((b =? 32) || (b =? 10))%N%bool
              then match cur with EmptyString => xsplit "" r | _ => cur :: xsplit "" r end
              else xsplit (cur ++ String (ascii_of_N b) "")%string r
  end.
Definition xwords : list N -> list string := xsplit "".
(** "hé 1 10\n" *)
Definition xhe : list N := [104; 195; 169; 32; 49; 32; 49; 48; 10]%N.
(** "b 1 10\n" *)
Definition xb : list N := [98; 32; 49; 32; 49; 48; 10]%N.
Notation xrun := (graphite_run xpf xpi xwords xbase).
Definition xpoint (n : string) : @telemetry xQ := pt n (VSet (fofZ 1)) false None 10.

(** ** C88: what a client writes is read the same however the bytes are cut by the
    network.  False: a character cut in two is lost with all that arrived with it;
    an unterminated last line is read if its end comes with the close, and not if
    the close comes later. *)
Theorem C88_refuted_cut : exists (Q : QLib) (pf : string -> option f64) (pi : string -> option Z) (words : list N -> list string) (base : telemetry) (text : list N) (a b : list N),
  utf8 text = true /\ gline text /\ text = a ++ b /\
  List.length (g_sent (graphite_run pf pi words base [GData text; GClose []])) = 1 /\
  g_sent (graphite_run pf pi words base [GData a; GData b; GClose []]) = [] /\
  g_bad (graphite_run pf pi words base [GData a; GData b; GClose []]) = 0%N /\
  g_line (graphite_run pf pi words base [GData a; GData b; GClose []]) = [].
Proof.
  exists xQ, xpf, xpi, xwords, xbase, xhe, (firstn 2 xhe), (skipn 2 xhe).
  split; [reflexivity|]. split; [exists (firstn 8 xhe); split; [reflexivity|cbn; intuition lia]|]. repeat split; reflexivity.
Qed.
Theorem C88_refuted_last_line : exists (Q : QLib) (pf : string -> option f64) (pi : string -> option Z) (words : list N -> list string) (base : telemetry) (text : list N),
  utf8 text = true /\
  List.length (g_sent (graphite_run pf pi words base [GClose text])) = 1 /\
  g_sent (graphite_run pf pi words base [GData text; GClose []]) = [].
Proof. exists xQ, xpf, xpi, xwords, xbase, (removelast xhe). repeat split; reflexivity. Qed.

(** Proved when no arrival cuts a character: every cut of the text gives the lines of
    the text, each once and in order, and the part of a line that is left over waits.
    Missing: cuts inside characters, for which it is false. *)
Theorem C88_lines_partial : forall (Q : QLib) (pf : string -> option f64) (pi : string -> option Z) (words : list N -> list string) (base : telemetry)
  (chunks ls : list (list N)) (rest : list N),
  Forall (fun c => utf8 c = true) chunks -> Forall gline ls -> ~ In 10%N rest -> List.concat chunks = List.concat ls ++ rest ->
  handled (gparse pf pi words base) ls rest (graphite_run pf pi words base (map GData chunks)).
Proof.
  intros Q pf pi words base chunks ls rest U F Hr E. eapply st_handled.
  apply (run_data pf pi words base chunks [] [] graphite_start ls rest); auto. apply st_start.
Qed.
(** the same with the close of the stream: the lines that end in a line feed are
    handled; the last one is too if its last byte comes with the close, and otherwise
    is never handled *)
Theorem C88_close_partial : forall (Q : QLib) (pf : string -> option f64) (pi : string -> option Z) (words : list N -> list string) (base : telemetry)
  (chunks ls : list (list N)) (rest last : list N),
  Forall (fun c => utf8 c = true) chunks -> utf8 last = true -> Forall gline ls -> ~ In 10%N rest -> List.concat chunks ++ last = List.concat ls ++ rest ->
  (last = [] \/ (exists v, last = v ++ [10%N]) ->
     handled (gparse pf pi words base) ls rest (graphite_run pf pi words base (map GData chunks ++ [GClose last]))) /\
  ((exists v y, last = v ++ [y] /\ y <> 10%N) ->
     handled (gparse pf pi words base) (ls ++ [rest]) [] (graphite_run pf pi words base (map GData chunks ++ [GClose last]))).
Proof.
  intros Q pf pi words base chunks ls rest last U Ul F Hr E. unfold graphite_run. rewrite fold_left_app. cbn [fold_left].
  destruct (lines_exist (List.concat chunks)) as (l1 & r1 & E1 & F1 & N1).
  assert (S1 := run_data pf pi words base chunks [] [] graphite_start l1 r1 (st_start pf pi words base) (fun x => x) U F1 N1 E1). cbn [app] in S1.
  destruct (lines_exist (r1 ++ last)) as (l2 & r2 & E2 & F2 & N2).
  assert (X : List.concat (l1 ++ l2) ++ r2 = List.concat ls ++ rest).
  { rewrite <- E, concat_app, <- app_assoc, <- E2, app_assoc, <- E1. reflexivity. }
  apply lines_unique in X as [<- <-]; auto; [|now apply Forall_app].
  destruct (wake_close pf pi words base l1 r1 _ last l2 r2 S1 N1 Ul F2 N2 E2) as [W1 W2].
  split; intros H; (eapply st_handled); [exact (W1 H)|rewrite <- app_assoc; exact (W2 H)].
Qed.
(** whatever ASCII a client writes is cut between characters only *)
Theorem C88_ascii_partial : forall (Q : QLib) (pf : string -> option f64) (pi : string -> option Z) (words : list N -> list string) (base : telemetry)
  (chunks ls : list (list N)) (rest : list N),
  Forall (fun b => (b < 128)%N) (List.concat chunks) -> Forall gline ls -> ~ In 10%N rest -> List.concat chunks = List.concat ls ++ rest ->
  handled (gparse pf pi words base) ls rest (graphite_run pf pi words base (map GData chunks)).
Proof.
  intros Q pf pi words base chunks ls rest A. apply C88_lines_partial. clear - A. induction chunks as [|c cs IH]; [constructor|].
  cbn in A. apply Forall_app in A as [A1 A2]. constructor; [now apply ascii_utf8|auto].
Qed.
Example C88_ex : Forall (fun c => utf8 c = true) [[104]; [195; 169; 32; 49; 32]; [49; 48; 10; 98; 32; 49]]%N /\
  List.concat [[104]; [195; 169; 32; 49; 32]; [49; 48; 10; 98; 32; 49]]%N = List.concat [xhe] ++ [98; 32; 49]%N /\
  gline xhe /\
  g_sent (xrun (map GData [[104]; [195; 169; 32; 49; 32]; [49; 48; 10; 98; 32; 49]]%N)) = [xpoint (String "h" (String (ascii_of_N 195) (String (ascii_of_N 169) "")))] /\
  g_line (xrun (map GData [[104]; [195; 169; 32; 49; 32]; [49; 48; 10; 98; 32; 49]]%N)) = [98; 32; 49]%N /\
  g_sent (xrun [GData [98; 32]; GClose [49; 32; 49; 48]]%N) = [xpoint "b"].
Proof.
  split; [repeat constructor|]. split; [reflexivity|]. split; [exists (firstn 8 xhe); split; [reflexivity|cbn; intuition lia]|]. repeat split; reflexivity.
Qed.
Print Assumptions C88_refuted_cut. Print Assumptions C88_refuted_last_line. Print Assumptions C88_lines_partial.
Print Assumptions C88_close_partial. Print Assumptions C88_ascii_partial.

(** ** C89: a line that is not UTF-8 disturbs no other line.  False: when its first
    part came before, that part becomes the beginning of the next line. *)
Theorem C89_refuted_glued : exists (Q : QLib) (pf : string -> option f64) (pi : string -> option Z) (words : list N -> list string) (base : telemetry) (a bad l : list N) (t t' : telemetry),
  gline (a ++ bad) /\ utf8 (a ++ bad) = false /\ gline l /\ utf8 l = true /\
  g_sent (graphite_run pf pi words base [GData l]) = [t] /\
  g_sent (graphite_run pf pi words base [GData a; GData bad; GData l]) = [t'] /\ t_name t = "b" /\ t_name t' = "ab".
Proof.
  exists xQ, xpf, xpi, xwords, xbase, [97]%N, [255; 10]%N, xb, (xpoint "b"), (xpoint "ab").
  split; [exists [97; 255]%N; split; [reflexivity|cbn; intuition lia]|]. split; [reflexivity|].
  split; [exists (firstn 6 xb); split; [reflexivity|cbn; intuition lia]|]. repeat split; reflexivity.
Qed.
(** and lines that come behind it wait for another arrival: after two such lines and
    the close they are never read, whatever they are *)
Theorem C89_refuted_stalled : forall (Q : QLib) (pf : string -> option f64) (pi : string -> option Z) (words : list N -> list string) (base : telemetry)
  (b1 b2 : list N) (ls : list (list N)),
  gline b1 -> utf8 b1 = false -> gline b2 -> utf8 b2 = false ->
  let s := graphite_run pf pi words base [GData (b1 ++ b2 ++ List.concat ls); GClose []] in
  g_sent s = [] /\ g_bad s = 0%N /\ g_avail s = List.concat ls.
Proof.
  intros Q pf pi words base b1 b2 ls (t1 & -> & H1) U1 (t2 & -> & H2) U2. unfold graphite_run. cbn [fold_left].
  rewrite step_data by reflexivity. rewrite (gloop_bad pf pi words base _ t1 (t2 ++ 10%N :: List.concat ls)); [|exact H1|exact U1|cbn; now rewrite <- !app_assoc].
  cbn [g_line g_res g_avail g_closed g_sent g_good g_telem g_bad g_phase graphite_start]. rewrite step_close by reflexivity.
  rewrite (gloop_bad pf pi words base _ t2 (List.concat ls)); [|exact H2|exact U2|cbn; now rewrite app_nil_r]. cbn. auto.
Qed.
(** Proved when arrivals are whole lines and only the last line of an arrival is not
    UTF-8: all other lines are handled as if it were not there. *)
Theorem C89_isolated_partial : forall (Q : QLib) (pf : string -> option f64) (pi : string -> option Z) (words : list N -> list string) (base : telemetry)
  (rounds : list (list (list N) * option (list N))),
  Forall (fun r => Forall gline (fst r) /\ Forall (fun l => utf8 l = true) (fst r) /\
                   match snd r with Some bad => gline bad /\ utf8 bad = false | None => True end) rounds ->
  handled (gparse pf pi words base) (List.concat (map fst rounds)) []
    (graphite_run pf pi words base (map (fun r => GData (List.concat (fst r) ++ match snd r with Some bad => bad | None => [] end)) rounds)).
Proof.
  intros Q pf pi words base rounds H. eapply st_handled with (c := false).
  assert (G : forall done s, st pf pi words base false done [] s ->
     st pf pi words base false (done ++ List.concat (map fst rounds)) []
       (fold_left (graphite_step pf pi words base) (map (fun r => GData (List.concat (fst r) ++ match snd r with Some bad => bad | None => [] end)) rounds) s)).
  { induction H as [|[ls bad] r (F & U & B) _ IH]; intros done s S; [cbn; now rewrite app_nil_r|].
    cbn [map fold_left List.concat fst snd]. rewrite app_assoc. apply IH. cbn [fst snd] in F, U, B. destruct bad as [bad|].
    - destruct B as [B1 B2]. now apply wake_bad.
    - rewrite app_nil_r. apply wake_data with (x := []); auto; [clear - U; induction U; [reflexivity|cbn; now apply utf8_app_true]|cbn; now rewrite app_nil_r]. }
  exact (G [] graphite_start (st_start pf pi words base)).
Qed.
Example C89_ex : gline [255; 10]%N /\ utf8 [255; 10]%N = false /\
  g_sent (xrun [GData (xb ++ [255; 10]%N); GData xb]) = [xpoint "b"; xpoint "b"] /\
  g_sent (xrun [GData ([255; 10] ++ [255; 10] ++ xb)%N; GClose []]) = [].
Proof. split; [exists [255]%N; split; [reflexivity|cbn; intuition lia]|]. repeat split; reflexivity. Qed.
Print Assumptions C89_refuted_glued. Print Assumptions C89_refuted_stalled. Print Assumptions C89_isolated_partial.

(** ** C90: the handler of a connection ends with the connection.  False: only the
    shutdown of the source ends it. *)
Theorem C90_refuted : forall (Q : QLib) (pf : string -> option f64) (pi : string -> option Z) (words : list N -> list string) (base : telemetry)
  (before after : list gwake) (last : list N),
  ~ In GSystem before -> ~ In GSystem after ->
  g_phase (graphite_run pf pi words base (before ++ GClose last :: after)) = GPolling.
Proof.
  intros Q pf pi words base before after last Hb Ha. unfold graphite_run. rewrite run_phase by reflexivity.
  rewrite existsb_app. cbn [existsb orb].
  assert (X : forall ws, ~ In GSystem ws -> existsb (fun w => match w with GSystem => true | _ => false end) ws = false).
  { induction ws as [|w ws IH]; intros H; [reflexivity|]. cbn. rewrite IH by (intros I; apply H; now right). destruct w; [reflexivity|reflexivity|]. exfalso. apply H. now left. }
  now rewrite !X.
Qed.
(** it does end on the shutdown, in whatever state, and never panics *)
Theorem C90_system : forall (Q : QLib) (pf : string -> option f64) (pi : string -> option Z) (words : list N -> list string) (base : telemetry) (ws : list gwake),
  g_phase (graphite_run pf pi words base ws) <> GCrashed /\ (g_phase (graphite_run pf pi words base ws) = GReturned <-> In GSystem ws).
Proof.
  intros Q pf pi words base ws. unfold graphite_run. rewrite run_phase by reflexivity.
  destruct (existsb _ ws) eqn:E; (split; [discriminate|]); split; intros H; try discriminate; try reflexivity.
  - apply existsb_exists in E as (w & Hin & Hw). destruct w; [discriminate|discriminate|exact Hin].
  - exfalso. assert (X : existsb (fun w => match w with GSystem => true | _ => false end) ws = true) by (apply existsb_exists; exists GSystem; auto). congruence.
Qed.
Example C90_ex : g_phase (xrun [GData xb; GClose xb; GSystem]) = GReturned /\ g_phase (xrun [GData xb; GClose xb]) = GPolling.
Proof. split; reflexivity. Qed.
Print Assumptions C90_refuted. Print Assumptions C90_system.

(** ** C91: cernan.graphite.telemetry.received counts the points received.  False: it
    counts the lines, and a line may hold several points. *)
Theorem C91_refuted : exists (Q : QLib) (pf : string -> option f64) (pi : string -> option Z) (words : list N -> list string) (base : telemetry) (ws : list gwake),
  g_telem (graphite_run pf pi words base ws) = 1%N /\ List.length (g_sent (graphite_run pf pi words base ws)) = 2.
Proof. exists xQ, xpf, xpi, xwords, xbase, [GData (removelast xb ++ [32]%N ++ xb)]. split; reflexivity. Qed.
(** proved while no line received has more than three words and no arrival cuts a
    character *)
Theorem C91_count_partial : forall (Q : QLib) (pf : string -> option f64) (pi : string -> option Z) (words : list N -> list string) (base : telemetry)
  (chunks ls : list (list N)) (rest : list N),
  Forall (fun c => utf8 c = true) chunks -> Forall gline ls -> ~ In 10%N rest -> List.concat chunks = List.concat ls ++ rest ->
  Forall (fun l => List.length (words l) <= 3) ls ->
  g_telem (graphite_run pf pi words base (map GData chunks)) = N.of_nat (List.length (g_sent (graphite_run pf pi words base (map GData chunks)))).
Proof.
  intros Q pf pi words base chunks ls rest U F Hr E W.
  destruct (C88_lines_partial Q pf pi words base chunks ls rest U F Hr E) as (sent & kept & g & b & L & Hs & _ & _ & Ht & _).
  destruct (loop_one pf pi words base ls W) as (sent' & g' & b' & L' & G). rewrite L in L'. injection L' as <- _ <- _. now rewrite Ht, Hs.
Qed.
Example C91_ex : Forall (fun l => List.length (xwords l) <= 3) [xb; xhe; xb] /\ g_telem (xrun (map GData [firstn 3 xb; skipn 3 xb ++ xhe; xb])) = 3%N.
Proof. split; [repeat constructor|reflexivity]. Qed.
Print Assumptions C91_refuted. Print Assumptions C91_count_partial.
