From Verif Require Import Base BaseFacts TelemetryModel ParseModel ParseProofs GraphiteModel GraphiteSpec GraphiteProofs HearSpec Utf8.
Open Scope list_scope. Open Scope nat_scope.

Lemma utf8_nil : utf8 [] = true.
Proof. reflexivity. Qed.
Lemma newline_split bs : (exists t r, gline t /\ bs = t ++ r /\ to_newline bs = Some (t, r)) \/ (~ In 10%N bs /\ to_newline bs = None).
Proof.
  induction bs as [|b bs IH]; [right; split; [intros []|reflexivity]|]. cbn [to_newline]. destruct (N.eqb_spec b 10) as [->|Hb].
  - left. exists [10%N], bs. split; [exists []; split; [reflexivity|intros []]|auto].
  - destruct IH as [(t & r & (t0 & -> & Ht) & -> & E)|[Hn E]]; rewrite E.
    + left. exists (b :: t0 ++ [10%N]), r. split; [exists (b :: t0); split; [reflexivity|]|auto]. intros [H|H]; [congruence|contradiction].
    + right. split; [|reflexivity]. intros [H|H]; [congruence|contradiction].
Qed.
Section P.
Context {Q : QLib}.
Variable pf : string -> option f64.
Variable pi : string -> option Z.
Variable words : list N -> list string.
Variable base : telemetry.
Notation parse := (gparse pf pi words base).
Notation gloop := (gloop pf pi words base).
Notation step := (graphite_step pf pi words base).
(** the state when the lines [ls] were heard since [s] *)
Definition moved (s : gstate) (ls : list (list N)) (part left : list N) (s' : gstate) : Prop :=
  exists sent kept g b, source_loop parse ls (g_res s) = Some (sent, kept, g, b) /\
    s' = mkG part kept left (g_closed s') (g_sent s ++ sent) (g_good s + g) (g_telem s + g) (g_bad s + b) (g_phase s').
Lemma hears_total closed part bs : exists ls p l, hears closed part bs ls p l.
Proof.
  remember (List.length bs) as n eqn:En. revert part bs En. induction n as [n IH] using lt_wf_ind. intros part bs ->.
  destruct (newline_split bs) as [(t & r & Ht & -> & _)|[Hn _]].
  - destruct (utf8 t) eqn:U; [|do 3 eexists; apply h_bad; assumption].
    destruct (IH (List.length r)) with (part := @nil N) (bs := r) as (ls & p & l & H); [rewrite app_length; destruct Ht as (t0 & -> & _); rewrite app_length; cbn; lia|reflexivity|].
    do 3 eexists. apply h_line; eassumption.
  - destruct bs as [|b bs]; [do 3 eexists; apply h_none|]. destruct (utf8 (b :: bs)) eqn:U; [|do 3 eexists; apply h_bad_part; assumption].
    destruct closed; do 3 eexists; [apply h_last|apply h_part]; auto; discriminate.
Qed.
Lemma hears_fun closed part bs ls p l : hears closed part bs ls p l -> forall ls' p' l', hears closed part bs ls' p' l' -> ls = ls' /\ p = p' /\ l = l'.
Proof.
  assert (A : forall t t' r r', gline t -> gline t' -> t ++ r = t' ++ r' -> t = t' /\ r = r').
  { intros t t' r r' (a & -> & Ha) (b & -> & Hb) E. rewrite <- !app_assoc in E. cbn in E. apply first_newline in E as [-> ->]; auto. }
  assert (B : forall t r x, gline t -> t ++ r = x -> ~ In 10%N x -> False).
  { intros t r x (a & -> & _) <- H. apply H. apply in_or_app. left. apply in_or_app. right. left. reflexivity. }
  assert (C : forall t r, gline t -> t ++ r = [] -> False) by (intros t r (a & -> & _) E; destruct a; discriminate).
  induction 1 as [part t r ls p l G U H IH|part t r G U|part|part t N0 N1 U Hc|part t N0 N1 U Hc|part t N1 U]; intros ls' p' l' H'; inversion H'; subst;
    try (exfalso; eapply B; [|reflexivity|]; eassumption); try (exfalso; eapply B; [|symmetry; eassumption|]; eassumption);
    try (exfalso; eapply C; [|symmetry; eassumption]; eassumption); try (exfalso; eapply C; [|eassumption]; eassumption);
    try (match goal with E : _ ++ _ = _ ++ _ |- _ => apply A in E as [<- <-]; [|assumption|assumption] end); try congruence; auto.
  match goal with H2 : hears _ [] _ _ _ _ |- _ => destruct (IH _ _ _ H2) as (-> & -> & ->) end. auto.
Qed.
Lemma moved_cons s l ls part left s1 s' sent kept g b : source_loop parse [l] (g_res s) = Some (sent, kept, g, b) ->
  g_res s1 = kept -> g_sent s1 = g_sent s ++ sent -> g_good s1 = (g_good s + g)%N -> g_telem s1 = (g_telem s + g)%N -> g_bad s1 = (g_bad s + b)%N ->
  moved s1 ls part left s' -> moved s (l :: ls) part left s'.
Proof.
  intros E1 Er Es Eg Et Eb (sent' & kept' & g' & b' & E2 & E). rewrite Er in E2. exists (sent ++ sent'), kept', (g + g')%N, (b + b')%N.
  split; [exact (source_loop_app pf pi words base [l] ls _ _ _ _ _ _ _ _ _ E1 E2)|]. rewrite E. cbn [g_closed g_phase]. rewrite Es, Eg, Et, Eb, app_assoc, !N.add_assoc. reflexivity.
Qed.
Lemma moved_none s s' : g_res s' = g_res s -> g_sent s' = g_sent s -> g_good s' = g_good s -> g_telem s' = g_telem s -> g_bad s' = g_bad s -> moved s [] (g_line s') (g_avail s') s'.
Proof. intros E1 E2 E3 E4 E5. exists [], (g_res s), 0%N, 0%N. split; [reflexivity|]. rewrite app_nil_r, !N.add_0_r, <- E1, <- E2, <- E3, <- E4, <- E5. destruct s'; reflexivity. Qed.
Lemma one_line l res : exists sent kept g b, source_loop parse [l] res = Some (sent, kept, g, b).
Proof. apply loop_total. Qed.
Lemma gloop_hears closed part bs ls p l : hears closed part bs ls p l -> forall fuel s, g_closed s = closed -> g_line s = part -> g_avail s = bs -> List.length bs < fuel ->
  moved s ls p l (gloop fuel s) /\ g_closed (gloop fuel s) = closed /\ g_phase (gloop fuel s) = g_phase s.
Proof.
  induction 1 as [part t r ls p l G U H IH|part t r G U|part|part t N0 N1 U Hc|part t N0 N1 U Hc|part t N1 U]; intros fuel s Ec El Ea Hf; (destruct fuel as [|fuel]; [lia|]).
  - destruct G as (t0 & -> & Ht). rewrite <- app_assoc in Ea. cbn [app] in Ea. rewrite (gloop_line pf pi words base fuel t0 r s Ht U Ea). rewrite El. set (x := part ++ t0 ++ [10%N]).
    destruct (parse x (g_res s)) as [[|] res|] eqn:P; [| |exfalso; eapply parse_total; eauto].
    + match goal with |- context [gloop fuel ?z] => set (s1 := z) end. destruct (IH fuel s1) as (M & C & F); [assumption|reflexivity|reflexivity|rewrite !app_length in Hf; cbn in Hf; lia|].
      split; [|auto]. eapply moved_cons; [cbn [source_loop]; rewrite P; reflexivity|..|exact M]; cbn [s1 g_res g_sent g_good g_telem g_bad]; rewrite ?app_nil_r, ?N.add_0_r; reflexivity.
    + match goal with |- context [gloop fuel ?z] => set (s1 := z) end. destruct (IH fuel s1) as (M & C & F); [assumption|reflexivity|reflexivity|rewrite !app_length in Hf; cbn in Hf; lia|].
      split; [|auto]. eapply moved_cons; [cbn [source_loop]; rewrite P; reflexivity|..|exact M]; cbn [s1 g_res g_sent g_good g_telem g_bad]; rewrite ?app_nil_r, ?N.add_0_r; reflexivity.
  - destruct G as (t0 & -> & Ht). rewrite <- app_assoc in Ea. cbn [app] in Ea. rewrite (gloop_bad pf pi words base fuel t0 r s Ht U Ea). rewrite El. split; [|auto]. apply (moved_none s (mkG part _ r _ _ _ _ _ _)); reflexivity.
  - cbn [GraphiteModel.gloop]. unfold read_line. rewrite Ea. cbn [to_newline]. rewrite utf8_nil, app_nil_r. destruct (g_closed s); cbn [List.length];
      (split; [rewrite El; apply (moved_none s (mkG part _ [] _ _ _ _ _ _)); reflexivity|cbn; auto]).
  - rewrite (gloop_wait pf pi words base fuel s) by (rewrite ?Ea; congruence). rewrite El, Ea. split; [|cbn; auto]. apply (moved_none s (mkG (part ++ t) _ [] _ _ _ _ _ _)); reflexivity.
  - cbn [GraphiteModel.gloop]. unfold read_line. rewrite Ea, (to_newline_none _ N1), Ec, Hc, U, El. destruct t as [|b t]; [congruence|]. cbn [List.length]. set (x := part ++ b :: t).
    assert (L : forall s1, g_avail s1 = [] -> g_line s1 = [] -> g_closed s1 = true -> gloop fuel s1 = s1).
    { intros s1 A1 A2 A3. destruct fuel as [|fuel]; [reflexivity|]. cbn [GraphiteModel.gloop]. unfold read_line. rewrite A1, A3. cbn [to_newline]. rewrite utf8_nil, A2. cbn [List.length app]. destruct s1; cbn in *; congruence. }
    destruct (parse x (g_res s)) as [[|] res|] eqn:P; [| |exfalso; eapply parse_total; eauto].
    + rewrite L by (cbn; congruence). split; [|cbn; auto]. eapply moved_cons with (s1 := mkG [] _ [] _ _ _ _ _ _); [cbn [source_loop]; rewrite P; reflexivity|..|apply moved_none; reflexivity]; cbn [g_res g_sent g_good g_telem g_bad]; rewrite ?app_nil_r, ?N.add_0_r; reflexivity.
    + rewrite L by (cbn; congruence). split; [|cbn; auto]. eapply moved_cons with (s1 := mkG [] _ [] _ _ _ _ _ _); [cbn [source_loop]; rewrite P; reflexivity|..|apply moved_none; reflexivity]; cbn [g_res g_sent g_good g_telem g_bad]; rewrite ?app_nil_r, ?N.add_0_r; reflexivity.
  - cbn [GraphiteModel.gloop]. unfold read_line. rewrite Ea, (to_newline_none _ N1), U. destruct (g_closed s); (split; [rewrite El; apply (moved_none s (mkG part _ [] _ _ _ _ _ _)); reflexivity|cbn; auto]).
Qed.
Lemma moved_app s ls ls' p1 l1 p2 l2 s1 s2 : moved s ls p1 l1 s1 -> moved s1 ls' p2 l2 s2 -> moved s (ls ++ ls') p2 l2 s2.
Proof.
  intros (a & k & g & b & E1 & M1) (a' & k' & g' & b' & E2 & M2). assert (R : g_res s1 = k) by (rewrite M1; reflexivity). rewrite R in E2.
  exists (a ++ a'), k', (g + g')%N, (b + b')%N. split; [eapply source_loop_app; eassumption|]. rewrite M2. cbn [g_closed g_phase]. rewrite M1. cbn [g_sent g_good g_telem g_bad]. rewrite app_assoc, !N.add_assoc. reflexivity.
Qed.
Lemma moved_from s s0 ls p l s' : g_res s0 = g_res s -> g_sent s0 = g_sent s -> g_good s0 = g_good s -> g_telem s0 = g_telem s -> g_bad s0 = g_bad s -> moved s0 ls p l s' -> moved s ls p l s'.
Proof. intros E1 E2 E3 E4 E5 M. unfold moved in *. rewrite E1, E2, E3, E4, E5 in M. exact M. Qed.
Lemma moved_ends s ls p l s' : moved s ls p l s' -> g_line s' = p /\ g_avail s' = l.
Proof. intros (? & ? & ? & ? & _ & ->). auto. Qed.
Lemma after_stop ws : forall s, g_phase s <> GPolling -> fold_left step ws s = s.
Proof. induction ws as [|w ws IH]; intros s H; [reflexivity|]. cbn [fold_left]. assert (E : step s w = s) by (unfold graphite_step; destruct (g_phase s); congruence). rewrite E. auto. Qed.
Lemma run_hears ws : forall s, g_phase s = GPolling -> exists ls p l, hearing (g_closed s) (g_line s) (g_avail s) ws ls p l /\ moved s ls p l (fold_left step ws s).
Proof.
  induction ws as [|w ws IH]; intros s Hp.
  - exists [], (g_line s), (g_avail s). split; [constructor|apply moved_none; reflexivity].
  - cbn [fold_left]. unfold graphite_step at 2. rewrite Hp. cbv beta zeta. destruct w as [bs|bs|].
    + match goal with |- context [gloop ?f ?z] => set (s0 := z); change f with (1 + List.length (g_avail s0)); set (s1 := gloop (1 + List.length (g_avail s0)) s0) end.
      destruct (hears_total (g_closed s) (g_line s) (g_avail s ++ bs)) as (ls & p & l & H).
      destruct (gloop_hears _ _ _ _ _ _ H (1 + List.length (g_avail s0)) s0 eq_refl eq_refl eq_refl ltac:(cbn; lia)) as (M & C & F). fold s1 in M, C, F.
      destruct (moved_ends _ _ _ _ _ M) as [E1 E2]. destruct (IH s1) as (ls' & p' & l' & H' & M'); [rewrite F; reflexivity|]. rewrite C, E1, E2 in H'.
      exists (ls ++ ls'), p', l'. split; [eapply hg_data; eassumption|]. eapply moved_app; [|exact M']. eapply moved_from; [..|exact M]; reflexivity.
    + match goal with |- context [gloop ?f ?z] => set (s0 := z); change f with (1 + List.length (g_avail s0)); set (s1 := gloop (1 + List.length (g_avail s0)) s0) end.
      destruct (hears_total true (g_line s) (g_avail s ++ bs)) as (ls & p & l & H).
      destruct (gloop_hears _ _ _ _ _ _ H (1 + List.length (g_avail s0)) s0 eq_refl eq_refl eq_refl ltac:(cbn; lia)) as (M & C & F). fold s1 in M, C, F.
      destruct (moved_ends _ _ _ _ _ M) as [E1 E2]. destruct (IH s1) as (ls' & p' & l' & H' & M'); [rewrite F; reflexivity|]. rewrite C, E1, E2 in H'.
      exists (ls ++ ls'), p', l'. split; [eapply hg_close; eassumption|]. eapply moved_app; [|exact M']. eapply moved_from; [..|exact M]; reflexivity.
    + rewrite after_stop by (cbn; discriminate). exists [], (g_line s), (g_avail s). split; [constructor|]. apply (moved_none s (mkG (g_line s) _ (g_avail s) _ _ _ _ _ GReturned)); reflexivity.
Qed.
End P.
Lemma hearing_fun closed part left ws ls p l : hearing closed part left ws ls p l -> forall ls' p' l', hearing closed part left ws ls' p' l' -> ls = ls' /\ p = p' /\ l = l'.
Proof.
  induction 1 as [|closed part left bs ws ls ls' p1 l1 p2 l2 H H' IH|closed part left bs ws ls ls' p1 l1 p2 l2 H H' IH|]; intros lsx px lx R; inversion R; subst; auto;
  match goal with H2 : hears _ _ _ _ _ _ |- _ => destruct (hears_fun _ _ _ _ _ _ H _ _ _ H2) as (-> & -> & ->) end;
  match goal with H2 : hearing _ _ _ _ _ _ _ |- _ => destruct (IH _ _ _ H2) as (-> & -> & ->) end; auto.
Qed.
