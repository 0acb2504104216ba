(** * Proofs about a graphite connection. *)
From Verif Require Import Base TelemetryModel ParseModel ParseProofs GraphiteModel GraphiteSpec Utf8.
Open Scope list_scope. Open Scope nat_scope.

Lemma to_newline_line : forall t r, ~ In 10%N t -> to_newline (t ++ 10%N :: r) = Some (t ++ [10%N], r).
Proof.
  induction t as [|x t IH]; intros r H; [reflexivity|]. cbn [app to_newline].
  destruct (x =? 10)%N eqn:E; [exfalso; apply H; left; lia|]. rewrite IH; [reflexivity|]. intros I. apply H. now right.
Qed.
Lemma to_newline_none : forall t, ~ In 10%N t -> to_newline t = None.
Proof.
  induction t as [|x t IH]; intros H; [reflexivity|]. cbn [to_newline].
  destruct (x =? 10)%N eqn:E; [exfalso; apply H; left; lia|]. rewrite IH; [reflexivity|]. intros I. apply H. now right.
Qed.
(** every stream is lines and a rest, in one way *)
Lemma lines_exist : forall bs, exists ls rest, bs = List.concat ls ++ rest /\ Forall gline ls /\ ~ In 10%N rest.
Proof.
  induction bs as [|b r (ls & rest & E & F & N)]; [exists [], []; repeat split; [constructor|intros []]|].
  destruct (N.eq_dec b 10) as [->|Hb].
  - exists ([10%N] :: ls), rest. split; [cbn; now rewrite E|]. split; [|exact N]. constructor; [exists []; split; [reflexivity|intros []]|exact F].
  - destruct ls as [|l ls].
    + exists [], (b :: rest). cbn in E. subst r. repeat split; [constructor|]. intros [I|I]; [congruence|now apply N].
    + exists ((b :: l) :: ls), rest. split; [cbn in *; now rewrite E|]. split; [|exact N]. inversion F as [|? ? (t & -> & Ht) F']; subst.
      constructor; [|exact F']. exists (b :: t). split; [reflexivity|]. intros [I|I]; [congruence|now apply Ht].
Qed.
Lemma first_newline : forall (t t' r r' : list N), ~ In 10%N t -> ~ In 10%N t' -> t ++ 10%N :: r = t' ++ 10%N :: r' -> t = t' /\ r = r'.
Proof.
  induction t as [|x t IH]; intros [|y t'] r r' H H' E; cbn in E.
  - injection E as E. now split.
  - injection E as E1 E2. exfalso. apply H'. now left.
  - injection E as E1 E2. exfalso. apply H. now left.
  - injection E as E1 E2. subst y. destruct (IH t' r r') as [-> ->]; auto; intros I; [apply H|apply H']; now right.
Qed.
Lemma no_newline_app : forall (t r rest : list N), ~ In 10%N rest -> t ++ 10%N :: r <> rest.
Proof. intros t r rest H E. apply H. rewrite <- E. apply in_or_app. right. now left. Qed.
Lemma lines_unique : forall ls ls' rest rest', Forall gline ls -> Forall gline ls' -> ~ In 10%N rest -> ~ In 10%N rest' ->
  List.concat ls ++ rest = List.concat ls' ++ rest' -> ls = ls' /\ rest = rest'.
Proof.
  induction ls as [|l ls IH]; intros [|l' ls'] rest rest' F F' N N' E; cbn [List.concat app] in E.
  - now split.
  - exfalso. apply Forall_inv in F' as (t & -> & Ht). rewrite <- !app_assoc in E. cbn in E. symmetry in E. now apply no_newline_app in E.
  - exfalso. apply Forall_inv in F as (t & -> & Ht). rewrite <- !app_assoc in E. cbn in E. now apply no_newline_app in E.
  - inversion F as [|? ? (t & -> & Ht) F1]; subst. inversion F' as [|? ? (t' & -> & Ht') F1']; subst.
    rewrite <- !app_assoc in E. cbn in E. apply first_newline in E as [-> E]; auto. destruct (IH ls' rest rest') as [-> ->]; auto.
Qed.

Lemma add_one : forall a b : N, (a + 1 + b = a + (b + 1))%N.
Proof. lia. Qed.

Section Proofs.
Context `{Q : QLib}.
Variable pf : string -> option f64.
Variable pi : string -> option Z.
Variable words : list N -> list string.
Variable base : telemetry.
Notation parse := (gparse pf pi words base).
Notation gloop := (gloop pf pi words base).
Notation step := (graphite_step pf pi words base).
Notation run := (graphite_run pf pi words base).

Lemma parse_total : forall l res, parse l res <> PPanicked.
Proof. intros l res. apply graphite_total. Qed.
Lemma loop_total : forall ls res, exists sent kept g b, source_loop parse ls res = Some (sent, kept, g, b).
Proof.
  induction ls as [|l ls IH]; intros res; cbn [source_loop]; [eauto 8|].
  destruct (parse l res) as [[|] res'|] eqn:E; [| |exfalso; eapply parse_total; eauto].
  - destruct (IH []) as (s & k & g & b & ->). eauto 8.
  - destruct (IH res') as (s & k & g & b & ->). eauto 8.
Qed.
Lemma source_loop_app : forall a b res sent kept g bd sent' kept' g' bd',
  source_loop parse a res = Some (sent, kept, g, bd) -> source_loop parse b kept = Some (sent', kept', g', bd') ->
  source_loop parse (a ++ b) res = Some (sent ++ sent', kept', (g + g')%N, (bd + bd')%N).
Proof.
  induction a as [|x a IH]; intros b res sent kept g bd sent' kept' g' bd' H H'.
  - injection H as <- <- <- <-. cbn [app]. rewrite H'. reflexivity.
  - cbn [app source_loop] in *. destruct (parse x res) as [[|] res'|]; [| |discriminate].
    + destruct (source_loop parse a []) as [[[[s k] gg] bb]|] eqn:E; [|discriminate]. injection H as <- <- <- <-.
      rewrite (IH b _ _ _ _ _ _ _ _ _ E H'), app_assoc. now rewrite (N.add_shuffle0 _ 1).
    + destruct (source_loop parse a res') as [[[[s k] gg] bb]|] eqn:E; [|discriminate]. injection H as <- <- <- <-.
      rewrite (IH b _ _ _ _ _ _ _ _ _ E H'). now rewrite (N.add_shuffle0 _ 1).
Qed.

(** one turn of the while loop that finds a complete line *)
Lemma gloop_line : forall fuel t more s, ~ In 10%N t -> utf8 (t ++ [10%N]) = true -> g_avail s = t ++ 10%N :: more ->
  gloop (Datatypes.S fuel) s =
    match parse (g_line s ++ t ++ [10%N]) (g_res s) with
    | PPanicked => mkG (g_line s ++ t ++ [10%N]) (g_res s) more (g_closed s) (g_sent s) (g_good s) (g_telem s) (g_bad s) GCrashed
    | PReturn true res => gloop fuel (mkG [] [] more (g_closed s) (g_sent s ++ res) (g_good s + 1) (g_telem s + 1) (g_bad s) (g_phase s))
    | PReturn false res => gloop fuel (mkG [] res more (g_closed s) (g_sent s) (g_good s) (g_telem s) (g_bad s + 1) (g_phase s))
    end.
Proof.
  intros fuel t more s Ht Hu E. cbn [GraphiteModel.gloop]. unfold read_line. rewrite E, (to_newline_line t more Ht), Hu.
  rewrite app_length. cbn [List.length]. rewrite Nat.add_1_r. reflexivity.
Qed.
Lemma gloop_bad : forall fuel t more s, ~ In 10%N t -> utf8 (t ++ [10%N]) = false -> g_avail s = t ++ 10%N :: more ->
  gloop (Datatypes.S fuel) s = mkG (g_line s) (g_res s) more (g_closed s) (g_sent s) (g_good s) (g_telem s) (g_bad s) (g_phase s).
Proof. intros fuel t more s Ht Hu E. cbn [GraphiteModel.gloop]. unfold read_line. rewrite E, (to_newline_line t more Ht), Hu. reflexivity. Qed.
Lemma gloop_wait : forall fuel s, ~ In 10%N (g_avail s) -> utf8 (g_avail s) = true -> g_closed s = false ->
  gloop (Datatypes.S fuel) s = mkG (g_line s ++ g_avail s) (g_res s) [] false (g_sent s) (g_good s) (g_telem s) (g_bad s) (g_phase s).
Proof. intros fuel s Hn Hu Hc. cbn [GraphiteModel.gloop]. unfold read_line. rewrite (to_newline_none _ Hn), Hc, Hu. reflexivity. Qed.

(** the part of a line that is there is a prefix of it *)
Lemma prefix_line : forall (x bs t r : list N), ~ In 10%N x -> x ++ bs = t ++ 10%N :: r -> exists t2, t = x ++ t2 /\ bs = t2 ++ 10%N :: r.
Proof.
  induction x as [|a x IH]; intros bs t r H E; [exists t; now split|]. destruct t as [|b t]; cbn in E; injection E as E1 E2.
  - exfalso. apply H. now left.
  - subst b. destruct (IH bs t r) as (t2 & -> & ->); auto; [intros I; apply H; now right|]. exists t2. now split.
Qed.

(** the lines completed by an arrival, whatever follows them *)
Lemma gloop_lines : forall ls s fuel tail sent kept g b,
  Forall gline ls -> ~ In 10%N (g_line s) -> (ls = [] \/ utf8 (firstn (List.length (List.concat ls) - List.length (g_line s)) (g_avail s)) = true) ->
  (ls = [] /\ g_avail s = tail \/ ls <> [] /\ g_line s ++ g_avail s = List.concat ls ++ tail) ->
  List.length (g_avail s) < fuel -> source_loop parse ls (g_res s) = Some (sent, kept, g, b) ->
  exists fuel', List.length tail < fuel' /\ gloop fuel s =
    gloop fuel' (mkG (if ls then g_line s else []) kept tail (g_closed s) (g_sent s ++ sent) (g_good s + g) (g_telem s + g) (g_bad s + b) (g_phase s)).
Proof.
  induction ls as [|l ls IH]; intros s fuel tail sent kept g b F Hn Hu E Hf HL.
  - destruct E as [[_ E]|[E _]]; [|congruence]. injection HL as <- <- <- <-. exists fuel. subst tail. split; [exact Hf|].
    rewrite app_nil_r, !N.add_0_r. destruct s; reflexivity.
  - destruct E as [[E _]|[_ E]]; [discriminate|]. destruct Hu as [Hu|Hu]; [discriminate|].
    inversion F as [|? ? (t & -> & Ht) F']; subst. cbn [List.concat] in E. rewrite <- !app_assoc in E. cbn [app] in E.
    destruct (prefix_line _ _ _ _ Hn E) as (t2 & -> & E2).
    assert (Ht2 : ~ In 10%N t2) by (intros I; apply Ht; apply in_or_app; now right).
    assert (Hlen : List.length (List.concat ((((g_line s ++ t2) ++ [10%N])) :: ls)) - List.length (g_line s) = List.length (t2 ++ 10%N :: List.concat ls)).
    { cbn [List.concat]. rewrite !app_length. cbn [List.length]. lia. }
    rewrite Hlen, E2 in Hu. replace (t2 ++ 10%N :: List.concat ls ++ tail) with ((t2 ++ 10%N :: List.concat ls) ++ tail) in Hu by now rewrite <- app_assoc.
    rewrite firstn_app, Nat.sub_diag, firstn_all in Hu. cbn [firstn] in Hu. rewrite app_nil_r in Hu.
    assert (Hu1 : utf8 (t2 ++ [10%N]) = true) by (apply utf8_app_true; [exact (utf8_before_ascii _ _ _ Hu ltac:(lia))|reflexivity]).
    assert (Hu2 : utf8 (List.concat ls) = true).
    { replace (t2 ++ 10%N :: List.concat ls) with ((t2 ++ [10%N]) ++ List.concat ls) in Hu by now rewrite <- app_assoc. rewrite utf8_app in Hu; assumption. }
    destruct fuel as [|fuel]; [lia|]. rewrite (gloop_line fuel t2 (List.concat ls ++ tail) s Ht2 Hu1 E2).
    cbn [source_loop] in HL. rewrite <- app_assoc in HL.
    assert (Hf' : List.length (List.concat ls ++ tail) < fuel) by (rewrite E2, app_length in Hf; cbn [List.length] in Hf; lia).
    destruct (parse (g_line s ++ t2 ++ [10%N]) (g_res s)) as [[|] res|] eqn:P; [| |exfalso; eapply parse_total; eauto].
    + destruct (source_loop parse ls []) as [[[[s1 k1] g1] b1]|] eqn:L; [|discriminate]. injection HL as <- <- <- <-.
      destruct (IH (mkG [] [] (List.concat ls ++ tail) (g_closed s) (g_sent s ++ res) (g_good s + 1) (g_telem s + 1) (g_bad s) (g_phase s)) fuel tail s1 k1 g1 b1)
        as (fuel' & Hfuel & ->); cbn [g_line g_avail g_res g_closed g_sent g_good g_telem g_bad g_phase]; auto; [| |].
      * destruct ls; [now left|right]. rewrite Nat.sub_0_r, firstn_app, Nat.sub_diag, firstn_all. cbn [firstn]. now rewrite app_nil_r.
      * destruct ls; [now left|right]. split; [discriminate|reflexivity].
      * exists fuel'. split; [exact Hfuel|]. rewrite <- !app_assoc, !add_one. now destruct ls.
    + destruct (source_loop parse ls res) as [[[[s1 k1] g1] b1]|] eqn:L; [|discriminate]. injection HL as <- <- <- <-.
      destruct (IH (mkG [] res (List.concat ls ++ tail) (g_closed s) (g_sent s) (g_good s) (g_telem s) (g_bad s + 1) (g_phase s)) fuel tail s1 k1 g1 b1)
        as (fuel' & Hfuel & ->); cbn [g_line g_avail g_res g_closed g_sent g_good g_telem g_bad g_phase]; auto; [| |].
      * destruct ls; [now left|right]. rewrite Nat.sub_0_r, firstn_app, Nat.sub_diag, firstn_all. cbn [firstn]. now rewrite app_nil_r.
      * destruct ls; [now left|right]. split; [discriminate|reflexivity].
      * exists fuel'. split; [exact Hfuel|]. rewrite !add_one. now destruct ls.
Qed.

(** the bytes of an arrival that complete lines end in a line feed *)
Lemma lines_cut : forall ls x bs tail, ls <> [] -> Forall gline ls -> ~ In 10%N x -> x ++ bs = List.concat ls ++ tail ->
  exists y, bs = y ++ 10%N :: tail /\ firstn (List.length (List.concat ls) - List.length x) bs = y ++ [10%N].
Proof.
  intros ls x bs tail Hls F Hx E. destruct (exists_last Hls) as (ls0 & l & ->).
  apply Forall_app in F as [_ F]. apply Forall_inv in F as (t & -> & _).
  rewrite concat_app in *. cbn [List.concat] in *. rewrite app_nil_r in *.
  assert (E' : x ++ bs = (List.concat ls0 ++ t) ++ 10%N :: tail) by (rewrite E, <- !app_assoc; reflexivity).
  destruct (prefix_line _ _ _ _ Hx E') as (y & Ey & ->). exists y. split; [reflexivity|].
  replace (List.length (List.concat ls0 ++ t ++ [10%N]) - List.length x) with (List.length (y ++ [10%N])).
  - replace (y ++ 10%N :: tail) with ((y ++ [10%N]) ++ tail) by now rewrite <- app_assoc.
    rewrite firstn_app, Nat.sub_diag, firstn_all. cbn [firstn]. apply app_nil_r.
  - rewrite app_assoc, Ey, !app_length. cbn [List.length]. lia.
Qed.

(** the loop up to the last complete line, when the bytes that complete lines are UTF-8 *)
Lemma gloop_upto : forall ls rest s bs fuel sent kept g b, Forall gline ls -> ~ In 10%N (g_line s) ->
  utf8 bs = true -> g_avail s = bs ++ rest -> (ls = [] -> bs = []) -> (ls <> [] -> g_line s ++ bs = List.concat ls) ->
  List.length (g_avail s) < fuel -> source_loop parse ls (g_res s) = Some (sent, kept, g, b) ->
  exists fuel', List.length rest < fuel' /\ gloop fuel s =
    gloop fuel' (mkG (if ls then g_line s else []) kept rest (g_closed s) (g_sent s ++ sent) (g_good s + g) (g_telem s + g) (g_bad s + b) (g_phase s)).
Proof.
  intros ls rest s bs fuel sent kept g b F Hn Hu E E0 E1 Hf HL. apply gloop_lines; auto.
  - destruct ls as [|l ls]; [now left|right]. pose proof (E1 ltac:(discriminate)) as E2. rewrite <- E2, app_length.
    replace (List.length (g_line s) + List.length bs - List.length (g_line s)) with (List.length bs) by lia.
    rewrite E, firstn_app, Nat.sub_diag, firstn_all. cbn [firstn]. now rewrite app_nil_r.
  - destruct ls as [|l ls]; [left|right]; (split; [easy|]).
    + rewrite E, E0 by reflexivity. reflexivity.
    + rewrite E, <- E1 by discriminate. now rewrite app_assoc.
Qed.

(** how the bytes [bs] after the part [x] of a line divide *)
Lemma divide : forall x bs ls rest, Forall gline ls -> ~ In 10%N x -> ~ In 10%N rest -> utf8 bs = true -> x ++ bs = List.concat ls ++ rest ->
  exists c t, bs = c ++ t /\ utf8 c = true /\ utf8 t = true /\ ~ In 10%N t /\ (ls = [] -> c = []) /\ (ls <> [] -> x ++ c = List.concat ls) /\
    (if ls then x else []) ++ t = rest.
Proof.
  intros x bs ls rest F Hx Hr Hu E. destruct ls as [|l ls].
  - exists [], bs. repeat split; auto; [|easy]. intros I. apply Hr. rewrite <- (E : x ++ bs = rest). apply in_or_app. now right.
  - destruct (lines_cut (l :: ls) x bs rest ltac:(discriminate) F Hx E) as (y & -> & _).
    assert (Hy : utf8 (y ++ [10%N]) = true) by (apply utf8_app_true; [exact (utf8_before_ascii _ _ _ Hu ltac:(lia))|reflexivity]).
    exists (y ++ [10%N]), rest. repeat split; auto; try discriminate.
    + now rewrite <- app_assoc.
    + rewrite <- (utf8_app (y ++ [10%N]) rest Hy), <- app_assoc. exact Hu.
    + intros _. replace (y ++ 10%N :: rest) with ((y ++ [10%N]) ++ rest) in E by now rewrite <- app_assoc.
      rewrite app_assoc in E. now apply app_inv_tail in E.
Qed.

Lemma step_data : forall s bs, g_phase s = GPolling -> step s (GData bs) =
  gloop (Datatypes.S (List.length (g_avail s ++ bs))) (mkG (g_line s) (g_res s) (g_avail s ++ bs) (g_closed s) (g_sent s) (g_good s) (g_telem s) (g_bad s) GPolling).
Proof. intros s bs H. unfold graphite_step. now rewrite H. Qed.
Lemma step_close : forall s bs, g_phase s = GPolling -> step s (GClose bs) =
  gloop (Datatypes.S (List.length (g_avail s ++ bs))) (mkG (g_line s) (g_res s) (g_avail s ++ bs) true (g_sent s) (g_good s) (g_telem s) (g_bad s) GPolling).
Proof. intros s bs H. unfold graphite_step. now rewrite H. Qed.

(** the state between arrivals: the lines [ls] done from nothing, [rest] there *)
Definition st (closed : bool) (ls : list (list N)) (rest : list N) (s : gstate) : Prop :=
  exists sent kept g b, source_loop parse ls [] = Some (sent, kept, g, b) /\ s = mkG rest kept [] closed sent g g b GPolling.
Lemma st_handled : forall c ls rest s, st c ls rest s -> handled parse ls rest s.
Proof. intros c ls rest s (sent & kept & g & b & H & ->). exists sent, kept, g, b. cbn. now repeat (split; [assumption || reflexivity|]). Qed.
Lemma st_start : st false [] [] graphite_start.
Proof. exists [], [], 0%N, 0%N. now split. Qed.

(** an arrival of UTF-8, up to its last complete line *)
Lemma wake_upto : forall cl c done x s bs ls rest, st c done x s -> ~ In 10%N x -> utf8 bs = true -> Forall gline ls -> ~ In 10%N rest ->
  x ++ bs = List.concat ls ++ rest ->
  exists u t fuel sent kept g b, bs = u ++ t /\ (ls = [] -> u = []) /\ (ls <> [] -> x ++ u = List.concat ls) /\
    (if ls then x else []) ++ t = rest /\ utf8 t = true /\ ~ In 10%N t /\ List.length t < fuel /\
    source_loop parse (done ++ ls) [] = Some (sent, kept, g, b) /\
    gloop (Datatypes.S (List.length bs)) (mkG x (g_res s) bs cl (g_sent s) (g_good s) (g_telem s) (g_bad s) GPolling) =
      gloop fuel (mkG (if ls then x else []) kept t cl sent g g b GPolling).
Proof.
  intros cl c done x s bs ls rest (sn & k & g & b & L & ->) Hx Hu F Hr E.
  destruct (divide x bs ls rest F Hx Hr Hu E) as (u & t & -> & Hc & Ht & Hn & H0 & H1 & <-).
  destruct (loop_total ls k) as (sn' & k' & g' & b' & L').
  pose proof (source_loop_app _ _ _ _ _ _ _ _ _ _ _ L L') as L2.
  destruct (gloop_upto ls t (mkG x k (u ++ t) cl sn g g b GPolling) u (Datatypes.S (List.length (u ++ t))) sn' k' g' b')
    as (fuel & Hf & Eq); cbn [g_line g_avail g_res]; auto.
  exists u, t, fuel, (sn ++ sn'), k', (g + g')%N, (b + b')%N.
  do 8 (split; [assumption || reflexivity|]). exact Eq.
Qed.
Lemma wake_data : forall done x s bs ls rest, st false done x s -> ~ In 10%N x -> utf8 bs = true -> Forall gline ls -> ~ In 10%N rest ->
  x ++ bs = List.concat ls ++ rest -> st false (done ++ ls) rest (step s (GData bs)).
Proof.
  intros done x s bs ls rest S Hx Hu F Hr E.
  destruct (wake_upto false false done x s bs ls rest S Hx Hu F Hr E) as (u & t & fuel & sent & kept & g & b & _ & _ & _ & <- & Ht & Hn & Hf & L & Eq).
  destruct S as (sn & k & g0 & b0 & _ & ->). rewrite step_data by reflexivity.
  cbn [g_line g_res g_avail g_closed g_sent g_good g_telem g_bad g_phase app] in *. rewrite Eq.
  destruct fuel as [|fuel]; [lia|]. rewrite gloop_wait; cbn [g_line g_res g_avail g_closed g_sent g_good g_telem g_bad g_phase]; auto.
  exists sent, kept, g, b. now split.
Qed.
Lemma run_data : forall chunks done x s ls rest, st false done x s -> ~ In 10%N x -> Forall (fun c => utf8 c = true) chunks -> Forall gline ls -> ~ In 10%N rest ->
  x ++ List.concat chunks = List.concat ls ++ rest -> st false (done ++ ls) rest (fold_left step (map GData chunks) s).
Proof.
  induction chunks as [|c chunks IH]; intros done x s ls rest S Hx Hu F Hr E.
  - cbn in E. rewrite app_nil_r in E. destruct (lines_unique [] ls x rest (Forall_nil _) F Hx Hr E) as [<- <-]. now rewrite app_nil_r.
  - inversion Hu as [|? ? Hc Hu']; subst. cbn [map fold_left List.concat] in *.
    destruct (lines_exist (x ++ c)) as (l1 & r1 & E1 & F1 & N1).
    destruct (lines_exist (r1 ++ List.concat chunks)) as (l2 & r2 & E2 & F2 & N2).
    assert (X : List.concat (l1 ++ l2) ++ r2 = List.concat ls ++ rest).
    { rewrite <- E, concat_app, <- app_assoc, <- E2, app_assoc, <- E1. now rewrite <- app_assoc. }
    apply lines_unique in X as [<- <-]; auto; [|now apply Forall_app]. rewrite app_assoc.
    apply IH with (x := r1); auto. now apply wake_data with (x := x).
Qed.
(** the close, with the bytes that come with it *)
Lemma wake_close : forall done x s bs ls rest, st false done x s -> ~ In 10%N x -> utf8 bs = true -> Forall gline ls -> ~ In 10%N rest ->
  x ++ bs = List.concat ls ++ rest ->
  ((bs = [] \/ exists v, bs = v ++ [10%N]) -> st true (done ++ ls) rest (step s (GClose bs))) /\
  ((exists v y, bs = v ++ [y] /\ y <> 10%N) -> st true (done ++ ls ++ [rest]) [] (step s (GClose bs))).
Proof.
  intros done x s bs ls rest S Hx Hu F Hr E.
  destruct (wake_upto true false done x s bs ls rest S Hx Hu F Hr E) as (u & t & fuel & sent & kept & g & b & Eb & E0 & E1 & Er & Ht & Hn & Hf & L & Eq).
  destruct S as (sn & k & g0 & b0 & _ & ->).
  assert (Es : step (mkG x k [] false sn g0 g0 b0 GPolling) (GClose bs) = gloop fuel (mkG (if ls then x else []) kept t true sent g g b GPolling)).
  { rewrite step_close by reflexivity. cbn [g_line g_res g_avail g_closed g_sent g_good g_telem g_bad g_phase app] in *. exact Eq. }
  rewrite Es. clear Es Eq. destruct fuel as [|fuel]; [lia|]. split.
  - intros H. assert (T : t = []).
    { destruct H as [->|[v ->]]; [symmetry in Eb; now apply app_eq_nil in Eb|].
      destruct t as [|y t] using rev_ind; [reflexivity|]. exfalso. rewrite app_assoc in Eb. apply app_inj_tail in Eb as [_ <-].
      apply Hn. apply in_or_app. right. now left. }
    subst t. rewrite app_nil_r in Er. exists sent, kept, g, b. split; [exact L|].
    cbn [GraphiteModel.gloop]. unfold read_line. cbn [g_avail g_closed g_line to_newline utf8 uscan List.length]. cbn. rewrite app_nil_r. now rewrite Er.
  - intros (v & y & Ev & Hy). destruct t as [|y' t _] using rev_ind.
    { exfalso. rewrite app_nil_r in Eb. subst u. destruct ls as [|l ls]; [rewrite E0 in Ev by reflexivity; now destruct v|].
      specialize (E1 ltac:(discriminate)). rewrite Ev, app_assoc in E1.
      destruct (exists_last (ltac:(discriminate) : l :: ls <> [])) as (ls0 & l0 & El). rewrite El in E1, F. apply Forall_app in F as [_ F].
      apply Forall_inv in F as (t0 & -> & _). rewrite concat_app in E1. cbn [List.concat] in E1. rewrite app_nil_r, (app_assoc (List.concat ls0)) in E1.
      apply app_inj_tail in E1 as [_ E1]. contradiction. }
    assert (R : read_line true (t ++ [y']) (if ls then x else []) = (Some (Datatypes.S (List.length t)), rest, [])).
    { unfold read_line. rewrite (to_newline_none _ Hn), Ht, Er. rewrite app_length, Nat.add_1_r. reflexivity. }
    destruct (loop_total [rest] kept) as (s1 & k1 & g1 & b1 & L1). pose proof (source_loop_app _ _ _ _ _ _ _ _ _ _ _ L L1) as L2.
    rewrite <- app_assoc in L2. exists (sent ++ s1), k1, (g + g1)%N, (b + b1)%N. split; [exact L2|].
    cbn [GraphiteModel.gloop]. cbn [g_line g_res g_avail g_closed g_sent g_good g_telem g_bad g_phase]. rewrite R.
    cbn [source_loop] in L1. destruct fuel as [|fuel]; [rewrite app_length in Hf; cbn in Hf; lia|].
    destruct (parse rest kept) as [[|] res|] eqn:P; [| |discriminate]; injection L1 as <- <- <- <-;
      cbn [GraphiteModel.gloop]; cbn; now rewrite ?app_nil_r, ?N.add_0_r.
Qed.

(** an arrival that ends in a line that is not UTF-8 *)
Lemma wake_bad : forall done s ls bad, st false done [] s -> Forall gline ls -> Forall (fun l => utf8 l = true) ls -> gline bad -> utf8 bad = false ->
  st false (done ++ ls) [] (step s (GData (List.concat ls ++ bad))).
Proof.
  intros done s ls bad (sn & k & g & b & L & ->) F U (t & -> & Ht) Hb.
  destruct (loop_total ls k) as (sn' & k' & g' & b' & L').
  assert (Uc : utf8 (List.concat ls) = true) by (clear - U; induction U; [reflexivity|cbn; now apply utf8_app_true]).
  rewrite step_data by reflexivity. cbn [g_line g_res g_avail g_closed g_sent g_good g_telem g_bad g_phase app].
  destruct (gloop_upto ls (t ++ [10%N]) (mkG [] k (List.concat ls ++ t ++ [10%N]) false sn g g b GPolling) (List.concat ls)
    (Datatypes.S (List.length (List.concat ls ++ t ++ [10%N]))) sn' k' g' b') as (fuel & Hf & Eq); cbn [g_line g_avail g_res app]; auto.
  { intros ->. reflexivity. }
  rewrite Eq. destruct fuel as [|fuel]; [lia|]. rewrite (gloop_bad fuel t []); cbn [g_line g_res g_avail g_closed g_sent g_good g_telem g_bad g_phase]; auto.
  exists (sn ++ sn'), k', (g + g')%N, (b + b')%N. split; [now apply source_loop_app with (kept := k)|]. now destruct ls.
Qed.

(** ** Ends *)
Lemma gloop_phase : forall fuel s, g_phase (gloop fuel s) = g_phase s.
Proof.
  induction fuel as [|fuel IH]; intros s; [reflexivity|]. cbn [GraphiteModel.gloop].
  destruct (read_line (g_closed s) (g_avail s) (g_line s)) as [[[[|n]|] line] avail]; [reflexivity| |reflexivity].
  destruct (parse line (g_res s)) as [[|] res|] eqn:P; [now rewrite IH|now rewrite IH|exfalso; eapply parse_total; eauto].
Qed.
Lemma step_phase : forall s w, g_phase (step s w) = match g_phase s, w with GPolling, GSystem => GReturned | p, _ => p end.
Proof. intros s w. unfold graphite_step. destruct (g_phase s) eqn:E; [|assumption|assumption]. destruct w; [rewrite gloop_phase|rewrite gloop_phase|]; assumption || reflexivity. Qed.
Lemma run_phase : forall ws s, g_phase s = GPolling -> g_phase (fold_left step ws s) = if existsb (fun w => match w with GSystem => true | _ => false end) ws then GReturned else GPolling.
Proof.
  assert (R : forall ws s, g_phase s = GReturned -> g_phase (fold_left step ws s) = GReturned).
  { induction ws as [|w ws IH]; intros s H; [exact H|]. cbn. apply IH. rewrite step_phase, H. reflexivity. }
  induction ws as [|w ws IH]; intros s H; [exact H|]. cbn [fold_left existsb].
  destruct w; cbn [orb]; [apply IH|apply IH|apply R]; now rewrite step_phase, H.
Qed.

(** ** Counting *)
Lemma parse_one : forall line b res, List.length (words line) <= 3 -> parse line [] = PReturn b res -> if b then List.length res = 1 else res = [].
Proof.
  intros line b res H P. unfold gparse in P. destruct (words line) as [|a [|v [|t [|? ?]]]]; cbn [List.length] in H; try lia; cbn [graphite_words] in P; try (injection P as <- <-; reflexivity).
  destruct (pf v); [|injection P as <- <-; reflexivity]. destruct (pi t); [|injection P as <- <-; reflexivity].
  rewrite graphite_harden in P. cbn [graphite_words app List.length Nat.eqb negb] in P. injection P as <- <-. reflexivity.
Qed.
Lemma loop_one : forall ls, Forall (fun l => List.length (words l) <= 3) ls ->
  exists sent g b, source_loop parse ls [] = Some (sent, [], g, b) /\ N.of_nat (List.length sent) = g.
Proof.
  induction 1 as [|l ls W _ (sent & g & b & E & G)]; [exists [], 0%N, 0%N; split; reflexivity|]. cbn [source_loop].
  destruct (parse l []) as [[|] res|] eqn:P; [| |exfalso; eapply parse_total; eauto]; apply parse_one in P; auto.
  - rewrite E. exists (res ++ sent), (g + 1)%N, b. split; [reflexivity|]. rewrite app_length, P. lia.
  - subst res. rewrite E. eauto.
Qed.
End Proofs.
