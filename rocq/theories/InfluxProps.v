(** * Properties of the InfluxDB sink. *)
From Verif Require Import Base BaseFacts TelemetryModel QExample TelemetryProps CacheModel CacheProofs WavefrontModel WavefrontSpec WavefrontProofs WavefrontProps InfluxModel InfluxSpec InfluxProofs.
Open Scope string_scope. Open Scope list_scope. Open Scope nat_scope.

(** equal numbers are written the same *)
Definition shows (show_f : f64 -> string) : Prop := forall a b, feqb a b = true -> show_f a = show_f b.

(** ** C58 *)
(** a flush that returns has posted the text of all points it held, first to [before], none of which took it, then to one
    that did, and holds nothing any more *)
Theorem C58_posted_until_accepted : forall (Q : QLib) (show_f : f64 -> string) (show_n : N -> string), shows show_f ->
  forall (tags : tagmap) (s : influx) (c : icounts) (ans : list ianswer) (s' : influx) (c' : icounts) (posts : list (string * N)),
  i_flush show_f show_n tags s c ans = IDone s' c' posts ->
  exists before code after, ans = before ++ IStatus code :: after
    /\ Forall (fun a => ~ accepted (answer_of a)) before /\ accepted (Some code)
    /\ map fst posts = repeat (influx_text show_f show_n tags i_time (i_aggrs s)) (S (List.length before))
    /\ i_aggrs s' = [].
Proof.
  intros Q sf sn Hsh tags s c ans s' c' posts E. unfold i_flush in E. destruct (i_format _ _ _ _) as [body|] eqn:Ef; [|discriminate].
  apply i_format_text in Ef; [|exact Hsh]. subst body.
  destruct (split_accepted ans) as [F|(b & code & af & -> & F & Ha)]; [rewrite (i_loop_trying _ _ F) in E; discriminate|].
  rewrite (i_loop_run _ _ _ Ha _ _ _ F) in E. injection E as <- _ <-. exists b, code, af. repeat split; try assumption; try apply Ha.
  rewrite map_map. cbn [fst]. clear. generalize (i_attempts s). induction b as [|a b IH]; intros n; [reflexivity|].
  cbn [map levels repeat List.length]. f_equal. rewrite IH. reflexivity.
Qed.
(** it returns as soon as the server takes the batch; until then it keeps trying *)
Theorem C58_ends_partial : forall (Q : QLib) (show_f : f64 -> string) (show_n : N -> string), shows show_f ->
  forall (tags : tagmap) (s : influx) (c : icounts) (ans : list ianswer),
  Forall (no_nan show_f) (i_aggrs s) ->
  (Exists (fun a => accepted (answer_of a)) ans -> exists s' c' posts, i_flush show_f show_n tags s c ans = IDone s' c' posts)
  /\ (~ Exists (fun a => accepted (answer_of a)) ans -> i_flush show_f show_n tags s c ans = ITrying).
Proof.
  intros Q sf sn Hsh tags s c ans Hn. unfold i_flush. destruct (i_format _ _ _ _) as [body|] eqn:Ef; [|exfalso; exact (proj1 (i_format_panics sf sn Hsh tags (i_aggrs s)) Ef Hn)].
  destruct (split_accepted ans) as [F|(b & code & af & -> & F & Ha)].
  - split; [|intros _; rewrite (i_loop_trying _ _ F); reflexivity]. intros H. exfalso. rewrite Forall_forall in F. apply Exists_exists in H as (a & H1 & H2). exact (F a H1 H2).
  - rewrite (i_loop_run _ _ _ Ha _ _ _ F). split; [eauto|]. intros H. destruct H. apply Exists_exists. exists (IStatus code). split; [apply in_elt|exact Ha].
Qed.
(** a point that is NaN panics the sink at the next flush, whatever the server says *)
Theorem C58_refuted : forall (Q : QLib) (show_f : f64 -> string) (show_n : N -> string), shows show_f ->
  forall (tags : tagmap) (s : influx) (c : icounts) (ans : list ianswer),
  (i_flush show_f show_n tags s c ans = IPanic <-> ~ Forall (no_nan show_f) (i_aggrs s))
  /\ exists t, ~ no_nan show_f t.
Proof.
  intros Q sf sn Hsh tags s c ans. split.
  - rewrite <- (i_format_panics sf sn Hsh tags). unfold i_flush. destruct (i_format _ _ _ _) as [body|]; [|tauto].
    destruct (i_loop _ _ _ _) as [[[? ?] ?]|]; split; discriminate.
  - exists (mkTelemetry "a" (VSet fnan) false None 0 None None). intros H. inversion H as [|? ? H1]; subst. apply H1. reflexivity.
Qed.
(** every point is in the posts of exactly the flush after its delivery, in order; the points since the last flush are held *)
Theorem C58_every_point_once : forall (Q : QLib) (show_f : f64 -> string) (show_n : N -> string), shows show_f ->
  forall (tags : tagmap) (rounds : list (list telemetry * list ianswer)) (rest : list telemetry) (c : icounts) (s : influx) (c' : icounts) (posts : list (list (string * N))),
  i_run show_f show_n tags (flat_map (fun r => map IDeliver (fst r) ++ [IFlush (snd r)]) rounds ++ map IDeliver rest) influx_init c = Some (s, c', posts) ->
  Forall2 (fun r p => p <> [] /\ Forall (fun x => fst x = influx_text show_f show_n tags i_time (fst r)) p) rounds posts
  /\ i_aggrs s = rest.
Proof.
  intros Q sf sn Hsh tags rounds rest.
  assert (D : forall l ops s c, i_run sf sn tags (map IDeliver l ++ ops) s c = i_run sf sn tags ops (mkInflux (i_aggrs s ++ l) (i_attempts s)) c).
  { induction l as [|t l IH]; intros ops s c; cbn [map app].
    - rewrite app_nil_r. destruct s; reflexivity.
    - cbn [i_run]. rewrite IH. unfold i_deliver. cbn. rewrite <- app_assoc. reflexivity. }
  unfold influx_init. generalize 0%N. induction rounds as [|[b a] rounds IH]; intros n c s c' posts E.
  - cbn [flat_map app] in E. rewrite <- (app_nil_r (map IDeliver rest)), D in E. cbn in E. injection E as <- _ <-. split; [constructor|reflexivity].
  - cbn [flat_map fst snd] in E. rewrite <- !app_assoc, D in E. cbn [app i_run i_aggrs i_attempts] in E.
    destruct (i_flush _ _ _ _ _ _) as [| |s1 c1 p1] eqn:Ef; try discriminate. destruct (i_run _ _ _ _ _ _) as [[[s2 c2] ps]|] eqn:Er; [|discriminate]. injection E as -> -> <-.
    destruct (C58_posted_until_accepted _ _ _ Hsh _ _ _ _ _ _ _ Ef) as (bf & code & af & _ & _ & _ & Hp & Hs). cbn [i_aggrs] in Hp.
    destruct s1 as [ag at_]. cbn in Hs. subst ag. destruct (IH _ _ _ _ _ Er) as [H1 H2]. split; [|exact H2]. constructor; [|exact H1]. cbn [fst]. split.
    + destruct p1; discriminate.
    + apply Forall_forall. intros x Hx. apply (in_map fst) in Hx. rewrite Hp in Hx. exact (repeat_spec _ _ _ Hx).
Qed.
(** the valve closes exactly above 100000 held points *)
Theorem C58_valve : forall (Q : QLib) (s : influx), i_valve_open s = true <-> (N.of_nat (List.length (i_aggrs s)) <= 100000)%N.
Proof. intros Q s. unfold i_valve_open. destruct (N.ltb_spec 100000 (N.of_nat (List.length (i_aggrs s)))); cbn; split; try discriminate; try lia; reflexivity. Qed.

(** ** C77 *)
(** before each POST the sink sleeps the time of the number of refusals held *)
Theorem C77_pauses_partial : forall (Q : QLib) (show_f : f64 -> string) (show_n : N -> string)
  (tags : tagmap) (s : influx) (c : icounts) (ans : list ianswer) (s' : influx) (c' : icounts) (posts : list (string * N)),
  i_flush show_f show_n tags s c ans = IDone s' c' posts ->
  exists before, (exists code after, ans = before ++ IStatus code :: after /\ accepted (Some code) /\ Forall (fun a => ~ accepted (answer_of a)) before)
    /\ map snd posts = map delay_ms (levels (i_attempts s) (map answer_of before))
    /\ i_attempts s' = (last (levels (i_attempts s) (map answer_of before)) 0 - 1)%N.
Proof.
  intros Q sf sn tags s c ans s' c' posts E. unfold i_flush in E. destruct (i_format _ _ _ _) as [body|]; [|discriminate].
  destruct (split_accepted ans) as [F|(b & code & af & -> & F & Ha)]; [rewrite (i_loop_trying _ _ F) in E; discriminate|].
  rewrite (i_loop_run _ _ _ Ha _ _ _ F) in E. injection E as <- _ <-. exists b. split; [exists code, af; auto|]. cbn. rewrite map_map. auto.
Qed.
(** a run of refusals: the pause before the POST after [k] of them *)
Theorem C77_refusals_partial : forall (k : nat) (n : N) (answers : list (option N)), Forall (fun a => refused a = true) answers ->
  k <= List.length answers -> (n + N.of_nat (List.length answers) <= 4294967295)%N ->
  nth_error (levels n answers) k = Some (n + N.of_nat k)%N.
Proof.
  intros k n answers F. revert k n. induction F as [|a l Ha F IH]; intros k n Hk Hn; cbn [List.length] in *.
  - assert (k = 0) by lia. subst. cbn. f_equal. lia.
  - destruct k as [|k]; cbn [levels nth_error]; [f_equal; lia|]. rewrite Ha, N.min_l by lia. rewrite IH by lia. f_equal. lia.
Qed.
(** but while the server cannot be reached, or redirects, the sink posts again without any pause *)
Theorem C77_refuted : forall (Q : QLib) (show_f : f64 -> string) (show_n : N -> string), shows show_f ->
  forall (tags : tagmap) (ts : list telemetry) (c : icounts) (a : ianswer) (n : nat),
  Forall (no_nan show_f) ts -> ~ accepted (answer_of a) -> refused (answer_of a) = false ->
  exists s' c' posts, i_flush show_f show_n tags (mkInflux ts 0) c (repeat a n ++ [IStatus 204]) = IDone s' c' posts
    /\ List.length posts = S n /\ Forall (fun p => snd p = 0%N) posts.
Proof.
  intros Q sf sn Hsh tags ts c a n Hn Ha Hr. unfold i_flush. cbn [i_aggrs i_attempts]. destruct (i_format _ _ _ _) as [body|] eqn:Ef; [|exfalso; exact (proj1 (i_format_panics sf sn Hsh tags ts) Ef Hn)].
  rewrite i_loop_run.
  - eexists _, _, _. split; [reflexivity|]. clear -Hr. induction n as [|n [IH1 IH2]]; [cbn; auto|]. cbn [repeat map levels]. rewrite Hr. cbn [map List.length]. rewrite IH1. split; [reflexivity|].
    constructor; [reflexivity|exact IH2].
  - unfold accepted. lia.
  - apply Forall_forall. intros x Hx. apply repeat_spec in Hx. subst. exact Ha.
Qed.
(** the documented delays, 2^x milliseconds up to 8 and 512 from 9, hold except at 1 *)
Theorem C77_delay_partial : forall x : N, x <> 1%N ->
  delay_ms x = (if x =? 0 then 0 else if x <? 9 then 2 ^ x else 512)%N.
Proof.
  intros x Hx. destruct (N.ltb_spec x 9).
  - assert (x = 0 \/ x = 2 \/ x = 3 \/ x = 4 \/ x = 5 \/ x = 6 \/ x = 7 \/ x = 8)%N as H1 by lia.
    repeat (destruct H1 as [->|H1]; [reflexivity|]). subst. reflexivity.
  - replace (x =? 0)%N with false by (symmetry; apply N.eqb_neq; lia). unfold delay_ms.
    destruct x as [|p]; [lia|]. do 4 (destruct p as [p|p|]; try reflexivity; try lia).
Qed.
Theorem C77_delay_refuted : delay_ms 1 <> (2 ^ 1)%N.
Proof. discriminate. Qed.

(** ** C78 *)
Theorem C78_partial : nanoseconds i_time.
Proof. exact i_time_ns. Qed.
(** later and earlier times are all written as one time, or as a time centuries off *)
Theorem C78_refuted : (forall ts, (9223372037 <= ts)%Z -> i_time ts = 9223372036854775807%N) /\ i_time (-1) = 18446744072709551616%N.
Proof. split; [|reflexivity]. intros ts H. unfold i_time, i64_min, i64_max. rewrite Z.min_l by lia. reflexivity. Qed.

(** ** C79 *)
(** lines whose names and tags need no escaping tell measurement, tags, number and time apart *)
Theorem C79_partial : forall (Q : QLib) (show_f : f64 -> string) (show_n : N -> string) (tags tags' : tagmap) (time time' : N) (m m' : string * f64),
  clean (fst m) -> clean (fst m') -> clean_tags tags -> clean_tags tags' ->
  clean (show_f (snd m)) -> clean (show_f (snd m')) -> clean (show_n time) -> clean (show_n time') ->
  influx_line show_f show_n tags time m = influx_line show_f show_n tags' time' m' ->
  fst m = fst m' /\ tags = tags' /\ show_f (snd m) = show_f (snd m') /\ show_n time = show_n time'.
Proof.
  intros Q sf sn tags tags' time time' [n x] [n' x'] Hn Hn' Ht Ht' Hx Hx' Hti Hti' E. unfold influx_line in E. cbn [fst snd] in *.
  destruct (head_split _ _ _ _ _ _ Hn Hn' Ht Ht' E) as (-> & -> & E1). cbn in E1. injection E1 as E1.
  destruct (split_special _ _ _ _ _ _ E1 Hx Hx' eq_refl eq_refl) as (-> & _ & E2).
  destruct (split_special _ _ _ _ _ _ E2 Hti Hti' eq_refl eq_refl) as (-> & _ & _). auto.
Qed.
(** nothing is escaped: a comma in a name reads as a tag, a newline as another point *)
Theorem C79_refuted : forall (show_f : f64 -> string) (show_n : N -> string) (time : N) (x : f64),
  influx_line show_f show_n [] time ("a,b=c", x) = influx_line show_f show_n [("b", "c")] time ("a", x)
  /\ influx_line show_f show_n [] time (("a value=1 1" ++ nl ++ "b")%string, x) = ("a value=1 1" ++ nl ++ influx_line show_f show_n [] time ("b", x))%string.
Proof. intros. split; reflexivity. Qed.

(** ** C80 *)
(** one success per flush, one failure per refusal of its class *)
Theorem C80_partial : forall (Q : QLib) (show_f : f64 -> string) (show_n : N -> string)
  (tags : tagmap) (s : influx) (c : icounts) (ans : list ianswer) (s' : influx) (c' : icounts) (posts : list (string * N)),
  i_flush show_f show_n tags s c ans = IDone s' c' posts ->
  exists before code after, ans = before ++ IStatus code :: after /\ accepted (Some code) /\ Forall (fun a => ~ accepted (answer_of a)) before
    /\ ic_success c' = (ic_success c + 1)%N
    /\ ic_client c' = (ic_client c + count client (map answer_of before))%N
    /\ ic_server c' = (ic_server c + count server (map answer_of before))%N.
Proof.
  intros Q sf sn tags s c ans s' c' posts E. unfold i_flush in E. destruct (i_format _ _ _ _) as [body|]; [|discriminate].
  destruct (split_accepted ans) as [F|(b & code & af & -> & F & Ha)]; [rewrite (i_loop_trying _ _ F) in E; discriminate|].
  rewrite (i_loop_run _ _ _ Ha _ _ _ F) in E. injection E as _ <- _. exists b, code, af. cbn. auto 10.
Qed.
(** the counter of delivery attempts stays 0 however many batches are delivered at once *)
Theorem C80_refuted : forall (Q : QLib) (show_f : f64 -> string) (show_n : N -> string) (tags : tagmap) (c : icounts),
  exists s' c' posts, i_flush show_f show_n tags influx_init c [IStatus 204] = IDone s' c' posts
    /\ List.length posts = 1 /\ ic_attempts c' = ic_attempts c.
Proof. intros Q sf sn tags c. eexists _, _, _. split; [reflexivity|]. cbn. split; [reflexivity|lia]. Qed.

(** ** Examples *)
Definition xih : hist := mkXHist [fone] [2%N; 3%N] (Some fone).
Definition xipoints : list telemetry := [pt "a" (VSum fone) false (Some [("k", "v")]) 7; pt "h" (VHist xih) false None 8; pt "q" (VQuant [fzero] fzero) false None 8].
Definition xisn (n : N) : string := if (n =? 7000000000)%N then "7000000000" else "8000000000".
Definition xitext : string :=
  ("a,k=v,host=x value=1 7000000000" ++ nl ++ "h.le_1,host=x value=1 8000000000" ++ nl ++ "h.le_inf,host=x value=1 8000000000" ++ nl
   ++ "q.1,host=x value=0 8000000000" ++ nl ++ "q.1,host=x value=0 8000000000" ++ nl ++ "q.1,host=x value=0 8000000000" ++ nl
   ++ "q.1,host=x value=0 8000000000" ++ nl ++ "q.1,host=x value=0 8000000000" ++ nl ++ "q.1,host=x value=0 8000000000" ++ nl)%string.
Example C58_example :
  i_flush xsf xisn [("host", "x")] (mkInflux xipoints 1) (mkICounts 0 0 0 0) [IError; IStatus 503; IStatus 302; IStatus 400; IStatus 204; IStatus 500]
  = IDone (mkInflux [] 2) (mkICounts 9 1 1 1) [(xitext, 1); (xitext, 1); (xitext, 4); (xitext, 4); (xitext, 8)]%N.
Proof. reflexivity. Qed.
Example C58_example_run :
  i_run xsf xisn [] [IDeliver (pt "a" (VSet fone) false None 7); IFlush [IError; IStatus 200]; IFlush [IStatus 200]; IDeliver (pt "b" (VSet fone) false None 7)] influx_init (mkICounts 0 0 0 0)
  = Some (mkInflux [pt "b" (VSet fone) false None 7] 0, mkICounts 0 2 0 0, [[(("a value=1 7000000000" ++ nl)%string, 0%N); (("a value=1 7000000000" ++ nl)%string, 0%N)]; [("", 0%N)]]).
Proof. reflexivity. Qed.
Example C58_example_shows : shows xsf.
Proof. exact C65_example_show. Qed.
Example C58_example_no_nan : Forall (no_nan xsf) xipoints.
Proof. repeat constructor; discriminate. Qed.
Example C77_example : levels 0 [Some 500; None; Some 404]%N = [0; 1; 1; 2]%N.
Proof. reflexivity. Qed.
Example C79_example : clean "web.requests" /\ clean_tags [("host", "a-1")].
Proof. split; repeat constructor. Qed.

Print Assumptions C58_posted_until_accepted.
Print Assumptions C58_ends_partial.
Print Assumptions C58_refuted.
Print Assumptions C58_every_point_once.
Print Assumptions C58_valve.
Print Assumptions C77_pauses_partial.
Print Assumptions C77_refusals_partial.
Print Assumptions C77_refuted.
Print Assumptions C77_delay_partial.
Print Assumptions C77_delay_refuted.
Print Assumptions C78_partial.
Print Assumptions C78_refuted.
Print Assumptions C79_partial.
Print Assumptions C79_refuted.
Print Assumptions C80_partial.
Print Assumptions C80_refuted.
