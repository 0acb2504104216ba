(** * The file source: properties C55, C56 and C76. *)
From Verif Require Import Base BaseFacts FileModel FileSpec FileProofs.
From Coq Require Import Permutation Lia.
Open Scope string_scope. Open Scope list_scope. Open Scope nat_scope.

(** ** C55: while the path names one file and others only append complete lines to it *)
(** Any number of calls of read_line, however the writers interleave with their system calls, return the good lines
    (not blank, valid text) among the lines taken so far, in order; what is left unread is what was not taken. *)
Theorem C55_watcher_lines cap utf8_ok n f w p i rest os f' w' : 0 < cap ->
  holds f p i w -> stays p i w -> lines_only i w -> Forall line rest -> unread f w = unlines rest ->
  reads cap utf8_ok n f w = (os, f', w') ->
  exists taken left new, files w' i = files w i ++ unlines new /\ rest ++ new = taken ++ left /\
    texts os = good utf8_ok taken /\ unread f' w' = unlines left /\ holds f' p i w'.
Proof.
  intros Hc H S HL Hr U E. destruct (reads_lines cap utf8_ok Hc n f w p i rest H S HL Hr U) as (os1 & f1 & w1 & done & r1 & new & R & _ & _ & G & Eq & T & H1 & U1).
  rewrite E in R. injection R as -> -> ->. exists done, r1, new. auto.
Qed.
(** Once the writers rest, every call takes the next line: as many calls as lines return them all. *)
Theorem C55_watcher_complete cap utf8_ok n f w p i rest : 0 < cap ->
  sched w = [] -> named w p = Some i -> holds f p i w -> Forall line rest -> unread f w = unlines rest ->
  exists f', reads cap utf8_ok n f w = (answers utf8_ok (firstn n rest) ++ repeat (Text []) (n - List.length rest), f', w).
Proof. intros Hc Q Nm H Hr U. destruct (reads_quiet cap utf8_ok Hc n f w p i rest Q H Nm Hr U) as (f' & E & _). exists f'. exact E. Qed.
(** A new watcher starts at the end of its file: it will return what is appended from then on. *)
Theorem C55_start p i w f w' : stays p i w -> lines_only i w -> watch p w = (f, w') ->
  holds f p i w' /\ unread f w' = [] /\ stays p i w' /\ lines_only i w'.
Proof.
  intros S HL E. pose proof (watch_later _ _ _ _ E) as L. split; [|split; [|split; [eapply later_stays; eassumption|apply (later_lines i _ _ L HL)]]].
  - unfold watch in E. destruct (later_stays p i w _ (later_tick w) S) as [Nm _]. rewrite Nm in E. injection E as <- <-.
    unfold holds. cbn. repeat split; auto; [lia|]. eexists. split; [reflexivity|]. cbn. repeat split; lia.
  - unfold watch in E. destruct (later_stays p i w _ (later_tick w) S) as [Nm _]. rewrite Nm in E. injection E as <- <-.
    unfold unread. cbn. apply skipn_all.
Qed.

(** The whole server: with any number of other files, any glob results and any order of draining the map, the lines
    sent for the path are the good lines among those taken, in order, each once; and with the writers at rest, as many
    rounds as lines left take them all. *)
Theorem C55_server cap utf8_ok max rs s w p i f rest ls s' w' : 0 < cap ->
  Forall (fun fo => some_order (snd fo)) rs -> NoDup (map fst (s_map s)) -> alookup seqb p (s_map s) = Some f ->
  holds f p i w -> stays p i w -> lines_only i w -> Forall line rest -> unread f w = unlines rest ->
  rounds cap utf8_ok max rs s w = (ls, s', w') ->
  exists f' taken left new, alookup seqb p (s_map s') = Some f' /\ files w' i = files w i ++ unlines new /\
    rest ++ new = taken ++ left /\ sent_for p ls = good utf8_ok taken /\ unread f' w' = unlines left /\ holds f' p i w' /\
    (sched w = [] -> List.length rest <= List.length rs -> left = []).
Proof.
  intros Hc Ho Hnd Hal H S HL Hr U E.
  destruct (rounds_lines cap utf8_ok Hc max rs s w p i f rest Ho Hnd Hal H S HL Hr U)
    as (ls1 & s1 & w1 & f1 & done & r1 & new & R & _ & _ & Al & _ & G & Eq & T & H1 & U1 & Q).
  rewrite E in R. injection R as -> -> ->. exists f1, done, r1, new. split; [exact Al|]. split; [exact G|]. split; [exact Eq|]. split; [exact T|]. split; [exact U1|]. split; [exact H1|exact Q].
Qed.

Lemma glob_finds found : forall m w m' w' p i, glob_poll found m w = (m', w') -> In p found -> alookup seqb p m = None -> stays p i w -> lines_only i w ->
  exists f missed rest, alookup seqb p m' = Some f /\ holds f p i w' /\ Forall line rest /\ unread f w' = unlines rest /\
    files w' i = files w i ++ unlines (missed ++ rest).
Proof.
  induction found as [|q r IH]; intros m w m' w' p i H Hin A S HL; [contradiction|]. cbn in H. destruct (watch q w) as [g w1] eqn:W.
  pose proof (watch_later _ _ _ _ W) as L. destruct (later_lines i _ _ L HL) as [HL1 (n0 & N0 & G0)].
  destruct (String.eqb_spec q p) as [->|Hn].
  - unfold amem in H. rewrite A in H. destruct (C55_start p i w g w1 S HL W) as (H1 & U1 & S1 & _).
    pose proof (glob_keeps _ _ _ _ _ p g H (alookup_ainsert_eq seqb seqb_eq _ _ _)) as Al.
    destruct (holds_later g p i w1 w' [] (glob_later _ _ _ _ _ H) HL1 H1 ltac:(constructor) U1) as (n1 & N1 & G1 & H2 & U2).
    exists g, n0, n1. split; [exact Al|]. split; [exact H2|]. split; [exact N1|]. split; [exact U2|]. rewrite G1, G0, unlines_app, app_assoc. reflexivity.
  - destruct Hin as [->|Hin]; [contradiction|].
    assert (A' : alookup seqb p (if amem seqb q m then m else ainsert seqb q g m) = None).
    { destruct (amem seqb q m); [exact A|]. rewrite (alookup_ainsert_ne seqb seqb_eq) by exact Hn. exact A. }
    destruct (IH _ w1 m' w' p i H Hin A' (later_stays _ _ _ _ L S) HL1) as (f & mi & rest & Al & H1 & F & U & G).
    exists f, (n0 ++ mi), rest. split; [exact Al|]. split; [exact H1|]. split; [exact F|]. split; [exact U|].
    rewrite G, G0, !unlines_app, !app_assoc. reflexivity.
Qed.

(** From its first round on, the server sends the good lines of a path found by that round, from the place where the
    file ended when it was first opened. *)
Theorem C55_from_start cap utf8_ok max found order rs w p i ls s' w' : 0 < cap ->
  some_order order -> Forall (fun fo => some_order (snd fo)) rs -> In p found -> stays p i w -> lines_only i w ->
  rounds cap utf8_ok max ((found, order) :: rs) server_init w = (ls, s', w') ->
  exists missed taken left, files w' i = files w i ++ unlines (missed ++ taken ++ left) /\ sent_for p ls = good utf8_ok taken /\
    exists f, alookup seqb p (s_map s') = Some f /\ unread f w' = unlines left.
Proof.
  intros Hc Ho Hos Hin S HL E. cbn [rounds] in E. destruct (round cap utf8_ok max found order server_init w) as [[[l1 wt] s1] w1] eqn:R.
  unfold round in R. cbn [s_map server_init s_cap] in R. destruct (glob_poll found [] w) as [m w0] eqn:Gp.
  destruct (glob_finds found [] w m w0 p i Gp Hin eq_refl S HL) as (f & missed & rest & Al & H0 & F & U & G).
  pose proof (glob_later _ _ _ _ _ Gp) as L0. destruct (line_poll cap utf8_ok max (order m) [] w0) as [[[l n] alt] w2] eqn:LP.
  injection R as <- <- <- <-.
  destruct (line_has cap utf8_ok Hc p i max (order m) f [] w0 rest) as (ls1 & n1 & alt1 & w1' & f1 & d1 & r1 & new1 & LP1 & L1 & Al1 & F1 & G1 & E1 & T1 & H1 & U1 & _); auto.
  { eapply Permutation_in; [apply Ho|]. apply (alookup_In seqb seqb_eq), Al. }
  { eapply Permutation_NoDup; [apply Permutation_map, Ho|]. eapply glob_nodup; [exact Gp|constructor]. }
  { eapply later_stays; eassumption. } { apply (later_lines i _ _ L0 HL). }
  rewrite LP in LP1. injection LP1 as <- <- <- <-.
  destruct (rounds cap utf8_ok max rs _ w2) as [[l2 s2] w3] eqn:R2. injection E as <- <- <-.
  assert (L2 : later w w2) by (eapply later_trans; eassumption).
  match type of R2 with rounds _ _ _ _ ?s0 _ = _ => 
    destruct (C55_server cap utf8_ok max rs s0 w2 p i f1 r1 l2 s2 w3 Hc Hos) as (f2 & d2 & r2 & new2 & Al2 & G2 & E2 & T2 & U2 & _ & _) end; auto.
  { cbn. eapply line_keys; [exact LP|constructor]. } { eapply later_stays; eassumption. } { apply (later_lines i _ _ L2 HL). }
  exists missed, (d1 ++ d2), r2. split.
  - rewrite G2, G1, G, <- !app_assoc, <- !unlines_app. f_equal. f_equal. rewrite <- !app_assoc. f_equal.
    rewrite app_assoc, E1, <- !app_assoc, E2. reflexivity.
  - split; [|exists f2; auto]. rewrite sent_for_app, T1, T2, good_app. reflexivity.
Qed.

(** *** Rotation *)
Lemma reopened cap utf8_ok f w p j ls : f_reopen f = true -> f_path f = p -> stays p j w -> lines_only j w -> Forall line ls -> files w j = unlines ls ->
  exists f1 w1 new, read_line cap utf8_ok f w = read_line cap utf8_ok f1 w1 /\ later w w1 /\ holds f1 p j w1 /\
    Forall line new /\ files w1 j = files w j ++ unlines new /\ unread f1 w1 = unlines (ls ++ new).
Proof.
  intros Hre <- S HL F C. pose proof (later_tick w) as L. destruct (later_stays _ j w _ L S) as [Nm _].
  pose proof (later_trans _ _ _ L (later_tick (tick w))) as L2. destruct (later_lines j _ _ L2 HL) as [_ (new & N & G)].
  exists (mkWatcher (f_path f) (Some (mkReader j 0 [])) (Some j) (List.length (files (tick (tick w)) j)) false), (tick (tick w)), new.
  split. { unfold read_line. rewrite Hre. unfold open_at_start. rewrite Nm. reflexivity. }
  split; [exact L2|]. split. { unfold holds. cbn. repeat split; auto. eexists. split; [reflexivity|]. cbn. repeat split; lia. }
  split; [exact N|]. split; [exact G|]. unfold unread. cbn. rewrite G, C, unlines_app. reflexivity.
Qed.

(** When the path comes to name another file and the old one is no longer written, the lines left in the old file are
    returned first, then the new file is read from its very first line. *)
Theorem C55_rotated_partial cap utf8_ok : 0 < cap -> forall rest f w p i j ls n os f' w',
  holds f p i w -> Forall line rest -> unread f w = unlines rest -> untouched i w ->
  stays p j w -> j <> i -> lines_only j w -> Forall line ls -> files w j = unlines ls ->
  reads cap utf8_ok (List.length rest + 1 + S n) f w = (os, f', w') ->
  exists taken left new, files w' j = unlines (ls ++ new) /\ ls ++ new = taken ++ left /\
    texts os = good utf8_ok (rest ++ taken) /\ unread f' w' = unlines left /\ holds f' p j w'.
Proof.
  intros Hc. induction rest as [|l rest IH]; intros f w p i j ls n os f' w' H Fr U Un St Hne HL Fl C E.
  - cbn [List.length plus reads] in E.
    destruct (read_line_core cap utf8_ok Hc f w p i [] H (untouched_lines _ _ Un) Fr U) as (o & f1 & w1 & n1 & n2 & R & L & N1 & N2 & G & M).
    destruct (later_untouched i w w1 L Un) as [_ G']. rewrite G' in G. rewrite <- (app_nil_r (files w i)) in G at 1. apply app_inv_head in G. symmetry in G.
    apply unlines_nil, app_eq_nil in G as [-> ->]. destruct M as (-> & _ & [[Nm _]|(_ & Re & Hp)]).
    { destruct (later_stays p j w w1 L St) as [Nm' _]. congruence. }
    rewrite R in E. destruct (later_lines j w w1 L HL) as [HL1 (nj & Nj & Gj)]. rewrite C, <- unlines_app in Gj.
    pose proof (later_stays _ _ _ _ L St) as S1.
    destruct (reopened cap utf8_ok f1 w1 p j (ls ++ nj) Re Hp S1 HL1 ltac:(apply Forall_app; auto) Gj) as (f2 & w2 & new & R2 & L2 & H2 & N2' & G2 & U2).
    cbn [reads] in E. rewrite R2 in E.
    assert (X : (let '(os, f0, w0) := reads cap utf8_ok (S n) f2 w2 in (Text [] :: os, f0, w0)) = (os, f', w')).
    { rewrite <- E. cbn [reads]. destruct (read_line cap utf8_ok f2 w2) as [[o3 f3] w3]. destruct (reads cap utf8_ok n f3 w3) as [[? ?] ?]. reflexivity. }
    clear E. destruct (reads cap utf8_ok (S n) f2 w2) as [[os2 f3] w3] eqn:Rd. injection X as <- <- <-.
    destruct (C55_watcher_lines cap utf8_ok (S n) f2 w2 p j ((ls ++ nj) ++ new) os2 f3 w3 Hc H2) as (taken & lft & new' & G3 & E3 & T3 & U3 & H3);
      auto.
    { eapply later_stays; eassumption. } { apply (later_lines j _ _ L2 HL1). } { repeat (apply Forall_app; split); auto. }
    exists taken, lft, (nj ++ new ++ new'). split; [rewrite G3, G2, Gj, <- !unlines_app, <- !app_assoc; reflexivity|].
    split; [rewrite <- E3, <- !app_assoc; reflexivity|]. split; [exact T3|]. auto.
  - cbn [List.length plus reads] in E. inversion Fr as [|? ? Fl1 Fr1]; subst.
    destruct (read_line_core cap utf8_ok Hc f w p i (l :: rest) H (untouched_lines _ _ Un) Fr U) as (o & f1 & w1 & n1 & n2 & R & L & N1 & N2 & G & M).
    destruct (later_untouched i w w1 L Un) as [Un1 G']. rewrite G' in G. rewrite <- (app_nil_r (files w i)) in G at 1. apply app_inv_head in G. symmetry in G.
    apply unlines_nil, app_eq_nil in G as [-> ->]. rewrite app_nil_r in M. destruct M as (-> & _ & U1 & H1). rewrite R in E.
    destruct (reads cap utf8_ok (List.length rest + 1 + S n) f1 w1) as [[os1 f2] w2] eqn:Rd. injection E as <- <- <-.
    destruct (later_lines j w w1 L HL) as [HL1 (nj & Nj & Gj)]. rewrite C, <- unlines_app in Gj.
    destruct (IH f1 w1 p i j (ls ++ nj) n os1 f2 w2 H1 Fr1 U1 Un1 (later_stays _ _ _ _ L St) Hne HL1 ltac:(apply Forall_app; auto) Gj Rd)
      as (taken & lft & new & G2 & E2 & T2 & U2 & H2).
    exists taken, lft, (nj ++ new). rewrite app_assoc. split; [exact G2|]. split; [exact E2|]. split; [|auto].
    rewrite texts_cons, T2, texts_ans. change ((l :: rest) ++ taken) with ([l] ++ (rest ++ taken)). rewrite (good_app utf8_ok [l]). reflexivity.
Qed.

(** *** Truncation *)
(** A file that is seen shorter than at the last call is read again from its first line. *)
Theorem C55_truncated_partial cap utf8_ok f w p i r ls n os f' w' : 0 < cap ->
  f_path f = p -> f_id f = Some i -> f_reopen f = false -> f_reader f = Some r -> r_ino r = i ->
  stays p i w -> lines_only i w -> Forall line ls -> files w i = unlines ls -> List.length (files (tick w) i) < f_prev f ->
  reads cap utf8_ok (S n) f w = (os, f', w') ->
  exists taken left new, files w' i = unlines (ls ++ new) /\ ls ++ new = taken ++ left /\
    texts os = good utf8_ok taken /\ unread f' w' = unlines left /\ holds f' p i w'.
Proof.
  intros Hc Hp Hid Hre Hr Hi St HL F C Hlt E.
  set (f0 := mkWatcher p (Some (mkReader i 0 [])) (Some i) 0 false).
  assert (X : read_line cap utf8_ok f w = read_line cap utf8_ok f0 w).
  { unfold read_line. rewrite Hre, Hr. cbn [f0 f_reopen f_reader f_prev f_path f_id r_ino]. rewrite Hi, Hp, Hid, Hre.
    apply Nat.ltb_lt in Hlt. rewrite Hlt. reflexivity. }
  assert (E0 : reads cap utf8_ok (S n) f0 w = (os, f', w')). { rewrite <- E. cbn [reads]. rewrite X. reflexivity. }
  destruct (C55_watcher_lines cap utf8_ok (S n) f0 w p i ls os f' w' Hc) as (taken & lft & new & G & Eq & T & U & H); auto.
  { unfold holds. cbn. repeat split; auto; [lia|]. eexists. split; [reflexivity|]. cbn. repeat split; lia. }
  exists taken, lft, new. rewrite G, C, unlines_app. auto.
Qed.

(** ** C56 *)
Lemma quiet_lines i w : sched w = [] -> lines_only i w.
Proof. intros Q. unfold lines_only, coming. rewrite Q. constructor. Qed.
Lemma read_until_part cap fuel : 0 < cap -> forall r w acc i, r_at r i w -> sched w = [] -> line (acc ++ r_unread r w) ->
  List.length (r_buf r) + List.length (skipn (r_off r) (files w i)) + to_come w < fuel ->
  exists r', read_until cap fuel r w acc = (acc ++ r_unread r w, r', w) /\ r_at r' i w /\ r_unread r' w = [].
Proof.
  intros Hc. induction fuel as [|fuel IH]; intros r w acc i [Hi Ho] Q Hl Hf; [lia|]. cbn [read_until]. unfold r_unread in *. rewrite Hi in *.
  destruct (fill_spec cap (fun _ => true) Hc r w i Hi (quiet_lines i w Q) Ho) as (r1 & w1 & new & F & L & N & G & Hi1 & Ho1 & U & Z & M). rewrite F.
  apply (sched_nil_later w w1 Q) in L. subst w1. rewrite <- (app_nil_r (files w i)) in G at 1. apply app_inv_head in G. symmetry in G. apply unlines_nil in G. subst new.
  cbn [unlines map List.concat] in U. rewrite app_nil_r in U. rewrite <- U in Hl |- *.
  destruct (r_buf r1) as [|b bb] eqn:B.
  - exists r1. rewrite (Z eq_refl) in *. cbn. rewrite app_nil_r. split; [reflexivity|]. split; [split; [exact Hi1|rewrite B; exact Ho1]|]. rewrite B, Hi1, (Z eq_refl). reflexivity.
  - rewrite <- B in *. destruct (split_line (r_buf r1)) as [[l s]|] eqn:S.
    + apply split_line_some in S as (l0 & -> & _ & S). contradiction Hl. apply in_or_app. right. apply in_or_app. left. rewrite S. apply in_or_app. left. apply in_or_app. right. left. reflexivity.
    + destruct (IH (mkReader (r_ino r1) (r_off r1) []) w (acc ++ r_buf r1) i) as (r' & R & A & U').
      * split; [exact Hi1|cbn; lia].
      * exact Q.
      * unfold r_unread. cbn. rewrite Hi1, <- app_assoc. exact Hl.
      * cbn [r_buf r_off List.length]. assert (List.length (r_buf r1) > 0) by (rewrite B; cbn; lia). lia.
      * exists r'. unfold r_unread in R, U'. cbn [r_buf r_off r_ino app] in R. rewrite R, Hi1, <- app_assoc.
        split; [reflexivity|]. split; [exact A|]. exact U'.
Qed.
(** a poll that meets the beginning of a line takes it, less its last character *)
Lemma read_line_part cap utf8_ok f w p i x : 0 < cap -> holds f p i w -> sched w = [] -> unread f w = x -> x <> [] -> line x -> utf8_ok x = true ->
  exists f', read_line cap utf8_ok f w = (Text (pop x), f', w) /\ holds f' p i w /\ unread f' w = [].
Proof.
  intros Hc (Hp & Hid & Hre & Hprev & r & Hr & Hi & Ho) Q U Hx Hl Ut. unfold read_line. rewrite Hre, Hr.
  replace (tick w) with w by (unfold tick; rewrite Q; reflexivity). rewrite Hi.
  replace (List.length (files w i) <? f_prev f) with false by (symmetry; apply Nat.ltb_ge; lia).
  unfold unread in U. rewrite Hr in U. fold (r_unread r w) in U.
  destruct (read_until_part cap (read_until_fuel r w) Hc r w [] i) as (r' & R & A & U').
  { split; [exact Hi|lia]. } { exact Q. } { rewrite U. exact Hl. } { unfold read_until_fuel. rewrite Hi. lia. }
  rewrite R, U. cbn [app]. rewrite Ut, Hp, Hid, Hre. destruct x as [|b x]; [contradiction|].
  eexists. split; [reflexivity|]. split; [|exact U']. unfold holds. cbn. repeat split; auto. exists r'. destruct A as [A1 A2]. auto.
Qed.
Lemma drop_char_app r b k : Forall (fun x => 128 <= x < 192)%N r -> (b < 128 \/ 192 <= b)%N -> drop_char (r ++ b :: k) = k.
Proof.
  intros Hr Hb. induction Hr as [|x r Hx _ IH]; cbn [app drop_char].
  - destruct ((128 <=? b)%N && (b <? 192)%N) eqn:E; [|reflexivity]. apply andb_prop in E as [E1 E2]. apply N.leb_le in E1. apply N.ltb_lt in E2. lia.
  - replace ((128 <=? x)%N && (x <? 192)%N) with true; [exact IH|]. symmetry. apply andb_true_intro. split; [apply N.leb_le|apply N.ltb_lt]; lia.
Qed.
Lemma pop_character k c : character c -> pop (k ++ c) = k.
Proof.
  intros (b & r & -> & Hb & Hr). unfold pop. rewrite rev_app_distr. cbn [rev]. rewrite <- app_assoc. cbn [app].
  rewrite drop_char_app; [apply rev_involutive| |exact Hb]. apply Forall_rev. exact Hr.
Qed.

(** For every line and every split of it over two writes with a poll between them: the poll returns the first part
    without its last character, which is lost, and the next poll the second part.  The second part and all later lines are
    intact. *)
Theorem C56_partial cap utf8_ok f w p i x c y later_lines : 0 < cap -> holds f p i w -> sched w = [] -> named w p = Some i ->
  unread f w = x ++ c -> character c -> line (x ++ c) -> utf8_ok (x ++ c) = true -> line y -> Forall line later_lines ->
  exists f1 f2, read_line cap utf8_ok f w = (Text x, f1, w) /\
    reads cap utf8_ok (S (List.length later_lines)) f1 (act w (Append i (unlines (y :: later_lines)))) =
      (answers utf8_ok (y :: later_lines), f2, act w (Append i (unlines (y :: later_lines)))).
Proof.
  intros Hc H Q Nm U Hx Hl Ut Hy Fl. assert (Ne : x ++ c <> []) by (destruct Hx as (b & r & -> & _); intros E; apply app_eq_nil in E as [_ E]; discriminate E).
  destruct (read_line_part cap utf8_ok f w p i (x ++ c) Hc H Q U Ne Hl Ut) as (f1 & R & H1 & U1). rewrite (pop_character x c Hx) in R.
  set (w2 := act w (Append i (unlines (y :: later_lines)))).
  assert (G : files w2 i = files w i ++ unlines (y :: later_lines)) by (cbn; unfold set_file; rewrite Nat.eqb_refl; reflexivity).
  destruct H1 as (Hp & Hid & Hre & Hprev & r & Hr & Hi & Ho).
  assert (H2 : holds f1 p i w2).
  { unfold holds. rewrite G. repeat split; auto; [rewrite app_length; lia|]. exists r. repeat split; auto; [lia|rewrite app_length; lia]. }
  assert (U2 : unread f1 w2 = unlines (y :: later_lines)).
  { unfold unread in *. rewrite Hr in *. rewrite Hi in *. rewrite G, skipn_grow by lia. rewrite app_assoc, U1. reflexivity. }
  destruct (C55_watcher_complete cap utf8_ok (S (List.length later_lines)) f1 w2 p i (y :: later_lines) Hc Q Nm H2 ltac:(constructor; assumption) U2) as (f2 & R2).
  exists f1, f2. split; [exact R|]. fold w2. rewrite R2.
  change (S (List.length later_lines)) with (List.length (y :: later_lines)). rewrite firstn_all, Nat.sub_diag, app_nil_r. reflexivity.
Qed.

(** *** Runs of the whole server *)
Definition all_text (bs : bytes) : bool := true.
Definition as_found (m : list (string * watcher)) := m.
Lemma as_found_order : some_order as_found.
Proof. intros m. apply Permutation_refl. Qed.

Ltac run_it := match goal with |- context [rounds ?a ?b ?c ?d ?e ?f] => let x := eval lazy in (rounds a b c d e f) in change (rounds a b c d e f) with x; cbv beta iota end.
(** line "abcd" written as "ab", then "cd" and the newline, with a poll between: "a" and "cd" are sent *)
Definition w_part := mkWorld [("a", 0)] (fun _ => [])
  [[]; []; [Append 0 [97; 98]%N]; []; []; []; []; [Append 0 [99; 100; 10]%N]].
Theorem C56_refuted : exists w rs, let '(ls, _, w') := rounds 8 all_text 100 rs server_init w in
  stays "a" 0 w /\ files w' 0 = unlines [[97; 98; 99; 100]%N] /\ sched w' = [] /\ sent_for "a" ls = [[97]; [99; 100]]%N.
Proof.
  exists w_part, (repeat (["a"], as_found) 4). run_it. split; [split; [reflexivity|repeat constructor]|]. auto.
Qed.

(** the file is gone for three rounds and then there again: "x", written to the new file before it is found, is lost *)
Definition w_gone := mkWorld [("a", 0)] (fun _ => [])
  [[]; []; []; []; []; []; []; [Unlink "a"]; []; []; []; []; [Link "a" 1; Append 1 [120; 10]%N]; []; []; []; []; [Append 1 [121; 10]%N]].
Theorem C55_rotated_refuted : exists w rs, let '(ls, _, w') := rounds 8 all_text 100 rs server_init w in
  lines_only 1 w /\ files w 1 = [] /\ named w' "a" = Some 1 /\ files w' 1 = unlines [[120]; [121]]%N /\ sched w' = [] /\ sent_for "a" ls = [[121]]%N.
Proof.
  exists w_gone, [(["a"], as_found); (["a"], as_found); ([], as_found); (["a"], as_found); (["a"], as_found)]. run_it.
  split; [|auto 10]. unfold lines_only, coming. cbn.
  assert (A : forall x, x <> 10%N -> 1 = 1 -> exists ls, Forall line ls /\ [x; 10]%N = unlines ls).
  { intros x Hx _. exists [[x]]. split; [|reflexivity]. repeat constructor. intros [E|[]]. congruence. }
  repeat constructor; apply A; discriminate.
Qed.
(** the file is truncated and grows to its old size between two polls: what was written is lost *)
Definition w_short := mkWorld [("a", 0)] (fun _ => [])
  [[]; []; [Append 0 [97; 97; 10]%N]; []; []; []; []; [Rewrite 0 [98; 98; 10]%N]].
Theorem C55_truncated_refuted : exists w rs, let '(ls, _, w') := rounds 8 all_text 100 rs server_init w in
  stays "a" 0 w /\ files w' 0 = unlines [[98; 98]]%N /\ sched w' = [] /\ sent_for "a" ls = [[97; 97]]%N.
Proof.
  exists w_short, (repeat (["a"], as_found) 4). run_it. split; [split; [reflexivity|repeat constructor]|]. auto.
Qed.

(** ** C76 *)
Lemma drain_sum cap utf8_ok fuel max : forall sofar f w ls n f' w', drain cap utf8_ok fuel max sofar f w = (ls, n, f', w') ->
  n = sofar + List.length (List.concat ls) /\ Forall (fun l => l <> []) ls /\ (sofar <= max -> sofar + List.length (List.concat (removelast ls)) <= max).
Proof.
  induction fuel as [|fuel IH]; intros sofar f w ls n f' w' H; cbn [drain] in H; [injection H as <- <- _ _; cbn; repeat split; [lia|constructor|lia]|].
  destruct (read_line cap utf8_ok f w) as [[o f1] w1]. destruct o as [[|b bs]|]; try (injection H as <- <- _ _; cbn; repeat split; [lia|constructor|lia]).
  set (l := b :: bs) in *. destruct (max <? sofar + List.length l) eqn:M.
  - injection H as <- <- _ _. cbn [List.concat removelast]. rewrite app_nil_r. split; [reflexivity|]. split; [repeat constructor; discriminate|]. cbn. lia.
  - destruct (drain cap utf8_ok fuel max (sofar + List.length l) f1 w1) as [[[ls1 n1] f2] w2] eqn:D. injection H as <- <- _ _.
    apply Nat.ltb_ge in M. destruct (IH _ _ _ _ _ _ _ D) as (E & Ne & B). specialize (B M). cbn [List.concat]. rewrite app_length. split; [lia|].
    split; [constructor; [discriminate|exact Ne]|]. intros _. destruct ls1 as [|l1 ls1]; [cbn; lia|].
    change (removelast (l :: l1 :: ls1)) with (l :: removelast (l1 :: ls1)). cbn [List.concat]. rewrite app_length. lia.
Qed.
Lemma drain_fuel cap utf8_ok max : forall fuel k sofar f w, sofar <= max -> max - sofar < fuel ->
  drain cap utf8_ok (fuel + k) max sofar f w = drain cap utf8_ok fuel max sofar f w.
Proof.
  induction fuel as [|fuel IH]; intros k sofar f w Hs Hf; [lia|]. cbn [drain plus].
  destruct (read_line cap utf8_ok f w) as [[o f1] w1]. destruct o as [[|b bs]|]; try reflexivity.
  destruct (max <? sofar + List.length (b :: bs)) eqn:M; [reflexivity|]. apply Nat.ltb_ge in M. cbn [List.length] in *. rewrite IH by lia. reflexivity.
Qed.
(** Whatever the file and its writers do, a poll of one file ends, reads at most max_read_bytes and one line more, and
    pushes no empty line. *)
Theorem C76_poll_bounded cap utf8_ok max f w ls n f' w' : poll_file cap utf8_ok max f w = (ls, n, f', w') ->
  n = List.length (List.concat ls) /\ List.length (List.concat (removelast ls)) <= max /\ Forall (fun l => l <> []) ls /\
  (forall k, drain cap utf8_ok (S max + k) max 0 f w = (ls, n, f', w')).
Proof.
  intros H. destruct (drain_sum _ _ _ _ _ _ _ _ _ _ _ H) as (E & Ne & B). split; [exact E|]. split; [apply B; lia|]. split; [exact Ne|].
  intros k. rewrite drain_fuel by lia. exact H.
Qed.
(** Every round takes at least one line from every watched file that has one, whatever the other files hold. *)
Theorem C76_no_starvation cap utf8_ok max found order s w p i f rest ls wait s' w' : 0 < cap ->
  some_order order -> NoDup (map fst (s_map s)) -> alookup seqb p (s_map s) = Some f ->
  holds f p i w -> stays p i w -> lines_only i w -> Forall line rest -> unread f w = unlines rest -> rest <> [] ->
  round cap utf8_ok max found order s w = (ls, wait, s', w') ->
  exists f' left new, alookup seqb p (s_map s') = Some f' /\ unread f' w' = unlines left /\ files w' i = files w i ++ unlines new /\
    List.length left < List.length (rest ++ new).
Proof.
  intros Hc Ho Hnd Hal H S HL Hr U Hn E.
  destruct (round_lines cap utf8_ok Hc max found order s w p i f rest Ho Hnd Hal H S HL Hr U)
    as (ls1 & wt & s1 & w1 & f1 & done & r1 & new & R & _ & _ & Al & _ & G & Eq & _ & _ & U1 & Pg).
  rewrite E in R. injection R as -> -> -> ->. exists f1, r1, new. split; [exact Al|]. split; [exact U1|]. split; [exact G|].
  rewrite Eq, app_length. specialize (Pg Hn). destruct done; [contradiction|]. cbn. lia.
Qed.
Lemma next_cap_range c n : (1 <= c <= 2048 -> 1 <= next_cap c n <= 2048)%N.
Proof.
  intros H. unfold next_cap. destruct (n =? 0); [|lia]. cbv zeta. destruct (2048 <? c * 2)%N eqn:E; lia.
Qed.
Lemma polled_bytes cap utf8_ok max : forall m alt w ls n alt' w', line_poll cap utf8_ok max m alt w = (ls, n, alt', w') -> n = List.length (List.concat (map snd ls)) /\ Forall (fun x => snd x <> []) ls.
Proof.
  induction m as [|[p f] m IH]; intros alt w ls n alt' w' E; cbn [line_poll] in E; [injection E as <- <- _ _; cbn; auto|].
    destruct (poll_file cap utf8_ok max f w) as [[[l1 n1] f1] w1] eqn:P. destruct (line_poll cap utf8_ok max m _ w1) as [[[l2 n2] a2] w2] eqn:L.
    injection E as <- <- _ _. destruct (IH _ _ _ _ _ _ L) as [E2 F2]. destruct (C76_poll_bounded _ _ _ _ _ _ _ _ _ P) as (E1 & _ & F1 & _).
    assert (M : map snd (map (fun l : bytes => (p, l)) l1) = l1) by (rewrite map_map; cbn; apply map_id).
    rewrite map_app, M, concat_app, app_length. split; [lia|]. apply Forall_app. split; [|exact F2]. apply Forall_map. exact F1.
Qed.
(** Between rounds the server waits at most 2048 milliseconds for a shutdown, and not at all after a round that read something. *)
Theorem C76_wait cap utf8_ok max rs w s found order w1 ls wait s' w' ls0 :
  rounds cap utf8_ok max rs server_init w = (ls0, s, w1) -> round cap utf8_ok max found order s w1 = (ls, wait, s', w') ->
  (wait <= 2048 /\ (ls <> [] -> wait = 0) /\ (ls = [] -> wait = N.min (2 * s_cap s) 2048))%N.
Proof.
  assert (A : forall rs s w ls0 s1 w1, (1 <= s_cap s <= 2048)%N -> rounds cap utf8_ok max rs s w = (ls0, s1, w1) -> (1 <= s_cap s1 <= 2048)%N).
  { clear. induction rs as [|[fo or] rs IH]; intros s w ls0 s1 w1 H E; cbn [rounds] in E; [injection E as _ <- _; exact H|].
    destruct (round cap utf8_ok max fo or s w) as [[[l wt] s2] w2] eqn:R. destruct (rounds cap utf8_ok max rs s2 w2) as [[l3 s3] w3] eqn:Rs.
    injection E as _ <- _. eapply IH; [|exact Rs]. unfold round in R. destruct (glob_poll fo (s_map s) w). destruct (line_poll _ _ _ _ _ _) as [[[l4 n4] a4] w4].
    injection R as _ _ <- _. cbn [s_cap]. apply next_cap_range, H. }
  intros R0 R. assert (C : (1 <= s_cap s <= 2048)%N) by (eapply A; [|exact R0]; cbn; lia).
  unfold round in R. destruct (glob_poll found (s_map s) w1) as [m w2]. destruct (line_poll cap utf8_ok max (order m) [] w2) as [[[l n] a] w3] eqn:L.
  injection R as <- <- _ _. destruct (polled_bytes _ _ _ _ _ _ _ _ _ _ L) as [E F]. pose proof (next_cap_range (s_cap s) n C) as D. split; [lia|]. split.
  - intros Hn. assert (n <> 0). { destruct l as [|[q t] l]; [contradiction|]. inversion F as [|? ? Ft _]; subst. cbn in *. destruct t; [contradiction|]. cbn. lia. }
    unfold next_cap. apply Nat.eqb_neq in H as Hb. rewrite Hb. lia.
  - intros ->. cbn in E. subst n. unfold next_cap. rewrite Nat.eqb_refl. cbv zeta. destruct (2048 <? s_cap s * 2)%N eqn:X; lia.
Qed.

Lemma caps_double cap utf8_ok max : forall rs s w s1 w1 k, s_cap s = N.min (2 ^ k) 2048 -> rounds cap utf8_ok max rs s w = ([], s1, w1) -> s_cap s1 = N.min (2 ^ (k + N.of_nat (List.length rs))) 2048.
Proof.
  induction rs as [|[fo or] rs IH]; intros s w s1 w1 k H E; cbn [rounds] in E; [injection E as <- _; cbn; rewrite N.add_0_r; exact H|].
  destruct (round cap utf8_ok max fo or s w) as [[[l wt] s2] w2] eqn:R. destruct (rounds cap utf8_ok max rs s2 w2) as [[l3 s3] w3] eqn:Rs.
  injection E as El <- _. apply app_eq_nil in El as [-> ->]. replace (k + N.of_nat (List.length ((fo, or) :: rs)))%N with ((k + 1) + N.of_nat (List.length rs))%N by (cbn [List.length]; lia).
  eapply IH; [|exact Rs]. unfold round in R. destruct (glob_poll fo (s_map s) w) as [m w0]. destruct (line_poll cap utf8_ok max (or m) [] w0) as [[[l4 n4] a4] w4] eqn:L.
  injection R as -> _ <- _. cbn [s_cap]. destruct (polled_bytes cap utf8_ok max _ _ _ _ _ _ _ L) as [-> _]. cbn [map List.concat List.length]. unfold next_cap. rewrite Nat.eqb_refl. cbv zeta. rewrite H, N.add_1_r, N.pow_succ_r'.
  set (p := (2 ^ k)%N). destruct (N.ltb_spec 2048 (N.min p 2048 * 2)); lia.
Qed.
(** While nothing is read the wait doubles from round to round, from 2 milliseconds on, at the start as after a round that read something. *)
Theorem C76_idle cap utf8_ok max rs w s w1 found order wait s' w' :
  (rounds cap utf8_ok max rs server_init w = ([], s, w1) \/
   exists found0 order0 s0 w0 ls0 wait0 s00 w00, round cap utf8_ok max found0 order0 s0 w0 = (ls0, wait0, s00, w00) /\ ls0 <> [] /\ rounds cap utf8_ok max rs s00 w00 = ([], s, w1)) ->
  round cap utf8_ok max found order s w1 = ([], wait, s', w') -> wait = N.min (2 ^ (N.of_nat (List.length rs) + 1)) 2048.
Proof.
  intros H R. assert (C : s_cap s = N.min (2 ^ (0 + N.of_nat (List.length rs))) 2048).
  { destruct H as [H|(fo & or & s0 & w0 & ls0 & wt & s00 & w00 & R0 & Hn & H)].
    - eapply caps_double; [|exact H]. reflexivity.
    - eapply caps_double; [|exact H]. unfold round in R0. destruct (glob_poll fo (s_map s0) w0) as [m w2]. destruct (line_poll cap utf8_ok max (or m) [] w2) as [[[l n] a] w3] eqn:L.
      injection R0 as <- _ <- _. cbn [s_cap]. destruct (polled_bytes cap utf8_ok max _ _ _ _ _ _ _ L) as [E F]. unfold next_cap.
      destruct (Nat.eqb_spec n 0) as [->|]; [|reflexivity]. exfalso. destruct l as [|[q t] l]; [contradiction|]. inversion F as [|? ? Ft _]; subst. cbn in *. destruct t; [contradiction|]. cbn in E. lia. }
  assert (C' : s_cap s' = N.min (2 ^ (0 + N.of_nat (List.length (rs ++ [(found, order)])))) 2048 /\ wait = s_cap s').
  { unfold round in R. destruct (glob_poll found (s_map s) w1) as [m w2]. destruct (line_poll cap utf8_ok max (order m) [] w2) as [[[l n] a] w3] eqn:L.
    injection R as -> <- <- _. cbn [s_cap]. destruct (polled_bytes cap utf8_ok max _ _ _ _ _ _ _ L) as [E _]. cbn in E. subst n. cbn [N.of_nat]. rewrite N.sub_0_r. split; [|reflexivity].
    unfold next_cap. rewrite Nat.eqb_refl. cbv zeta. rewrite C, app_length. cbn [List.length]. replace (0 + N.of_nat (List.length rs + 1))%N with (N.succ (0 + N.of_nat (List.length rs)))%N by lia. rewrite N.pow_succ_r'.
    set (p := (2 ^ (0 + N.of_nat (List.length rs)))%N). destruct (N.ltb_spec 2048 (N.min p 2048 * 2)); lia. }
  destruct C' as [C1 ->]. rewrite C1, app_length. cbn [List.length]. f_equal. f_equal. lia.
Qed.

(** ** Examples *)
(** two files, one watched from the start of the run; appends between system calls, a blank line, and a line of invalid text *)
Definition no_ff (bs : bytes) : bool := forallb (fun b => negb (N.eqb b 255)) bs.
Definition w_ex := mkWorld [("a", 0); ("b", 1)] (fun i => if Nat.eqb i 0 then [111; 10]%N else [])
  [[]; []; []; []; [Append 0 (unlines [[97]; []; [98; 98]]%N)]; []; []; [Append 1 (unlines [[99]]%N)]; [Append 0 (unlines [[255]; [100]]%N)]].
Example C55_example_hyps : stays "a" 0 w_ex /\ lines_only 0 w_ex.
Proof.
  split; [split; [reflexivity|repeat constructor]|]. unfold lines_only, coming. cbn. repeat constructor; try discriminate.
  - intros _. exists [[97]; []; [98; 98]]%N. split; [|reflexivity]. repeat constructor; unfold line; cbn; intuition discriminate.
  - intros _. exists [[255]; [100]]%N. split; [|reflexivity]. repeat constructor; unfold line; cbn; intuition discriminate.
Qed.
Example C55_example : let '(ls, _, w') := rounds 4 no_ff 100 (repeat (["a"; "b"], as_found) 4) server_init w_ex in
  ls = [("a", [97]); ("b", [99]); ("a", [98; 98]); ("a", [100])]%N /\ sched w' = [].
Proof. run_it. auto. Qed.
Example C55_example_held : let '(f, w') := watch "a" w_ex in holds f "a" 0 w' /\ unread f w' = [].
Proof.
  destruct C55_example_hyps as [S L]. destruct (watch "a" w_ex) as [f w'] eqn:E. destruct (C55_start "a" 0 w_ex f w' S L E) as (H & U & _). auto.
Qed.
(** rotation in time: the rest of the old file, then the new one from its start *)
Definition w_rot := mkWorld [("a", 0)] (fun _ => []) [[]; []; [Append 0 (unlines [[97]]%N); Link "a" 1; Append 1 (unlines [[98]]%N)]].
Example C55_rotated_example : let '(ls, _, w') := rounds 4 all_text 100 (repeat (["a"], as_found) 4) server_init w_rot in
  ls = [("a", [97]); ("a", [98])]%N /\ sched w' = [].
Proof. run_it. auto. Qed.
(** truncation that is seen *)
Definition w_cut := mkWorld [("a", 0)] (fun _ => []) [[]; []; [Append 0 (unlines [[97; 97]]%N)]; []; []; []; []; [Rewrite 0 (unlines [[98]]%N)]].
Example C55_truncated_example : let '(ls, _, w') := rounds 4 all_text 100 (repeat (["a"], as_found) 4) server_init w_cut in
  ls = [("a", [97; 97]); ("a", [98])]%N /\ sched w' = [].
Proof. run_it. auto. Qed.
(** "a" and e with an acute accent, 195 169, are there when the file is polled: "a" is returned, the accented letter is lost *)
Example C56_example : let f := mkWatcher "a" (Some (mkReader 0 0 [])) (Some 0) 0 false in let w := mkWorld [("a", 0)] (fun _ => [97; 195; 169]%N) [] in
  holds f "a" 0 w /\ unread f w = [97]%N ++ [195; 169]%N /\ character [195; 169]%N /\ line [97; 195; 169]%N /\ fst (fst (read_line 4 all_text f w)) = Text [97%N].
Proof.
  cbv zeta. split; [unfold holds; cbn; repeat split; try lia; eexists; repeat split; cbn; lia|]. split; [reflexivity|].
  split; [exists 195%N, [169%N]; split; [reflexivity|]; split; [right; lia|constructor; [lia|constructor]]|]. split; [unfold line; cbn; intuition discriminate|reflexivity].
Qed.
Example C76_idle_example : let '(ls, s, w1) := rounds 4 all_text 2 (repeat (["a"], as_found) 2) server_init (mkWorld [("a", 0)] (fun _ => []) []) in
  ls = [] /\ let '(ls', wait, _, _) := round 4 all_text 2 ["a"] as_found s w1 in ls' = [] /\ wait = 8%N.
Proof. lazy. auto. Qed.
Example C76_example : let '(ls, wait, _, _) := round 4 all_text 2 ["a"] as_found (mkServer [("a", mkWatcher "a" (Some (mkReader 0 0 [])) (Some 0) 0 false)] 8%N)
    (mkWorld [("a", 0)] (fun _ => unlines [[97]; [98]; [99; 99]; [100]]%N) []) in
  ls = [("a", [97]); ("a", [98]); ("a", [99; 99])]%N /\ wait = 0%N.
Proof. lazy. auto. Qed.

Print Assumptions C55_watcher_lines.
Print Assumptions C55_watcher_complete.
Print Assumptions C55_start.
Print Assumptions C55_server.
Print Assumptions C55_from_start.
Print Assumptions C55_rotated_partial.
Print Assumptions C55_rotated_refuted.
Print Assumptions C55_truncated_partial.
Print Assumptions C55_truncated_refuted.
Print Assumptions C56_partial.
Print Assumptions C56_refuted.
Print Assumptions C76_poll_bounded.
Print Assumptions C76_no_starvation.
Print Assumptions C76_wait.
Print Assumptions C76_idle.
