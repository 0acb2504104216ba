(** * Proofs about the text protocols. *)
From Verif Require Import Base BaseFacts TelemetryModel ParseModel ParseSpec.
Open Scope string_scope. Open Scope list_scope. Open Scope nat_scope.

(** ** Strings *)
Lemma sapp_nil_r s : (s ++ "")%string = s.
Proof. induction s as [|x s IH]; cbn; [reflexivity|rewrite IH; reflexivity]. Qed.
Lemma sapp_assoc a b c : ((a ++ b) ++ c)%string = (a ++ (b ++ c))%string.
Proof. induction a as [|x a IH]; cbn; [reflexivity|rewrite IH; reflexivity]. Qed.

Lemma find_char_some c s : forall a b, find_char c s = Some (a, b) -> s = (a ++ String c b)%string /\ free_of c a.
Proof.
  induction s as [|x s IH]; intros a b; cbn [find_char]; [discriminate|].
  destruct (Ascii.eqb_spec x c) as [->|Hx].
  - intros [= <- <-]. cbn; auto.
  - destruct (find_char c s) as [[a' b']|] eqn:E; [|discriminate]. intros [= <- <-].
    destruct (IH _ _ eq_refl) as [-> H]. cbn. auto.
Qed.
Lemma find_char_app c a : forall b, free_of c a -> find_char c (a ++ String c b)%string = Some (a, b).
Proof.
  induction a as [|x a IH]; intros b; cbn.
  - intros _. rewrite Ascii.eqb_refl. reflexivity.
  - intros [H1 H2]. destruct (Ascii.eqb_spec x c); [contradiction|]. rewrite IH by assumption. reflexivity.
Qed.
Lemma find_char_none c s : free_of c s -> find_char c s = None.
Proof.
  induction s as [|x s IH]; cbn; [reflexivity|]. intros [H1 H2].
  destruct (Ascii.eqb_spec x c); [contradiction|]. rewrite IH by assumption. reflexivity.
Qed.
Lemma find_char_none_inv c s : find_char c s = None -> free_of c s.
Proof.
  induction s as [|x s IH]; cbn; [auto|]. destruct (Ascii.eqb_spec x c); [discriminate|].
  destruct (find_char c s) as [[? ?]|]; [discriminate|]. auto.
Qed.

Lemma seqb_refl s : seqb s s = true.
Proof. apply seqb_eq; reflexivity. Qed.
Lemma seqb_neq a b : a <> b -> seqb a b = false.
Proof. intros H. destruct (seqb a b) eqn:E; [apply seqb_eq in E; contradiction|reflexivity]. Qed.

Section Proofs.
Context `{Q : QLib}.
Variable pf : string -> option f64.
Variable pi : string -> option Z.

(** ** Building points *)
Lemma mask_loop_none masks name m : first_mask masks name = None -> mask_loop masks name m = Some m.
Proof.
  induction masks as [|[re bs] masks IH]; cbn; [reflexivity|]. destruct (re name); [discriminate|assumption].
Qed.
Lemma mask_loop_some masks name m bs : first_mask masks name = Some bs ->
  mask_loop masks name m = b_bounds bs (b_clear_error (b_kind MHistogram m)).
Proof.
  induction masks as [|[re b] masks IH]; cbn; [discriminate|]. destruct (re name); [intros [= ->]; reflexivity|assumption].
Qed.
Lemma first_mask_ok cfg name bs : cfg_ok cfg -> first_mask (sc_masks cfg) name = Some bs ->
  existsb is_nan bs = false /\ exists h, h_new (fsort bs) = Some h.
Proof.
  intros [_ H]. induction H as [|[re b] l Hx _ IH]; cbn; [discriminate|].
  destruct (re name); [intros [= <-]; exact Hx|assumption].
Qed.

(** the point built for a line *)
Lemma gauge_point now base name v val sgn :
  harden now (b_value v (b_kind (if sgn : bool then MSum else MSet) (b_persist true (b_timestamp now (b_value val (b_name name (thaw base))))))) =
  HOk (mkTelemetry name (if sgn then VSum v else VSet v) true (t_tags base) now None None).
Proof. destruct sgn; reflexivity. Qed.
Lemma gauge_point' now base name val sgn :
  harden now (b_kind (if sgn : bool then MSum else MSet) (b_persist true (b_timestamp now (b_value val (b_name name (thaw base)))))) =
  HOk (mkTelemetry name (if sgn then VSum val else VSet val) true (t_tags base) now None None).
Proof. destruct sgn; reflexivity. Qed.

Definition timer_soft (cfg : statsd_cfg) (now : Z) (base : telemetry) (name : string) (val : f64) : option soft :=
  mask_loop (sc_masks cfg) name (b_error (sc_error cfg) (b_kind MSummarize (b_persist false (b_timestamp now (b_value val (b_name name (thaw base))))))).

Lemma harden_hist now s name v bs h p ts tg :
  s_initial s = Some v -> s_thawed s = None -> s_name s = Some name -> s_kind s = Some MHistogram ->
  s_error s = None -> s_bounds s = Some bs -> h_new bs = Some h -> s_persist s = Some p -> s_timestamp s = Some ts -> s_tags s = tg ->
  harden now s = HOk (mkTelemetry name (VHist (h_insert h v)) p tg ts None None).
Proof. intros E1 E2 E3 E4 E5 E6 E7 E8 E9 E0. unfold harden. rewrite E1, E2, E3, E4, E5, E6, E7, E8, E9, E0. reflexivity. Qed.
Lemma harden_summ now s name v e p ts tg :
  s_initial s = Some v -> s_thawed s = None -> s_name s = Some name -> s_kind s = Some MSummarize ->
  s_error s = Some e -> s_bounds s = None -> fleb fone e = false -> s_persist s = Some p -> s_timestamp s = Some ts -> s_tags s = tg ->
  s_count s = None -> s_sum s = None ->
  harden now s = HOk (mkTelemetry name (VQuant (c_insert (c_new e) v) v) p tg ts None None).
Proof. intros E1 E2 E3 E4 E5 E6 E7 E8 E9 E0 E10 E11. unfold harden. rewrite E1, E2, E3, E4, E5, E6, E7, E8, E9, E10, E11, E0. reflexivity. Qed.

Lemma timer_point cfg now base name val v : cfg_ok cfg ->
  exists m t, timer_soft cfg now base name val = Some m /\ harden now (b_value v m) = HOk t /\
    t_name t = name /\ t_timestamp t = now /\ t_tags t = t_tags base /\
    t_override_count t = None /\ t_override_sum t = None /\ t_persist t = false /\
    (match first_mask (sc_masks cfg) name with
     | None => t_value t = VQuant (c_insert (c_new (sc_error cfg)) v) v
     | Some bs => exists h, h_new (fsort bs) = Some h /\ t_value t = VHist (h_insert h v)
     end) /\ (v = val -> harden now m = HOk t).
Proof.
  intros Hc. unfold timer_soft. destruct (first_mask (sc_masks cfg) name) as [bs|] eqn:Ef.
  - rewrite (mask_loop_some _ _ _ _ Ef). destruct (first_mask_ok _ _ _ Hc Ef) as (Hn & h & Hh).
    unfold b_bounds. rewrite Hn. cbn [andb].
    eexists. exists (mkTelemetry name (VHist (h_insert h v)) false (t_tags base) now None None).
    split; [reflexivity|]. split.
    + apply (harden_hist now _ name v (fsort bs) h false now (t_tags base)); try reflexivity. exact Hh.
    + do 6 (split; [reflexivity|]). split; [exists h; split; [exact Hh|reflexivity]|]. intros ->.
      apply (harden_hist now _ name val (fsort bs) h false now (t_tags base)); try reflexivity. exact Hh.
  - rewrite (mask_loop_none _ _ _ Ef). destruct Hc as [He _].
    eexists. exists (mkTelemetry name (VQuant (c_insert (c_new (sc_error cfg)) v) v) false (t_tags base) now None None).
    split; [reflexivity|]. split.
    + apply (harden_summ now _ name v (sc_error cfg) false now (t_tags base)); try reflexivity. exact He.
    + do 6 (split; [reflexivity|]). split; [reflexivity|]. intros ->.
      apply (harden_summ now _ name val (sc_error cfg) false now (t_tags base)); try reflexivity. exact He.
Qed.

(** ** One line *)
Lemma is_sign_app vtext rest : pf vtext <> None -> is_sign (vtext ++ String "|" rest)%string = explicitly_signed vtext.
Proof. intros _. destruct vtext; reflexivity. Qed.

Lemma line_text_split name vtext ty rate :
  line_text name vtext ty rate =
  (name ++ String ":" (vtext ++ String "|" (stype_text ty ++ match rate with None => "" | Some (bar, r) => (if bar : bool then "|" else "") ++ String "@" r end)))%string.
Proof.
  unfold line_text. destruct rate as [[bar r]|]; reflexivity.
Qed.

Ltac seqs := repeat (rewrite seqb_refl || rewrite seqb_neq by discriminate); cbn [orb].

Lemma means_eq cfg now base s t t' : means cfg now base s t -> means cfg now base s t' -> t = t'.
Proof.
  destruct t, t'. unfold means; cbn. intros (-> & -> & -> & -> & -> & H) (-> & -> & -> & -> & -> & H').
  destruct (st_type s).
  - destruct H as [-> ->], H' as [-> ->]. reflexivity.
  - destruct H as [-> ->], H' as [-> ->]. reflexivity.
  - destruct H as [-> H], H' as [-> H']. destruct (first_mask _ _).
    + destruct H as (h & Hh & ->), H' as (h' & Hh' & ->). congruence.
    + congruence.
  - destruct H as [-> H], H' as [-> H']. destruct (first_mask _ _).
    + destruct H as (h & Hh & ->), H' as (h' & Hh' & ->). congruence.
    + congruence.
Qed.

Lemma line_says cfg now base src s : cfg_ok cfg -> says pf src s ->
  exists t, statsd_line pf cfg now base src = POk t /\ means cfg now base s t.
Proof.
  intros Hc H. destruct H as [name vtext v ty Hn Hf1 Hf2 Hp Hs|name vtext v ty bar rtext rate Hn Hf1 Hf2 Hp Hr Hs];
    subst src; rewrite line_text_split; unfold statsd_line.
  - rewrite find_char_app by assumption. rewrite (seqb_neq name "") by assumption.
    rewrite (seqb_neq _ "") by (destruct vtext; discriminate).
    rewrite find_char_app by assumption. rewrite Hp. rewrite sapp_nil_r.
    rewrite is_sign_app by congruence.
    destruct ty; cbn [stype_text]; seqs; cbn [find_char Ascii.eqb Bool.eqb]; seqs.
    + rewrite gauge_point'. eexists. split; [reflexivity|]. unfold means; cbn. auto 10.
    + eexists. split; [reflexivity|]. unfold means; cbn. auto 10.
    + destruct (timer_point cfg now base name v v Hc) as (m & t & E1 & E2 & A1 & A2 & A3 & A4 & A5 & A6 & A7 & A8).
      unfold timer_soft in E1. rewrite E1, (A8 eq_refl). exists t. split; [reflexivity|]. unfold means; cbn. auto 10.
    + destruct (timer_point cfg now base name v v Hc) as (m & t & E1 & E2 & A1 & A2 & A3 & A4 & A5 & A6 & A7 & A8).
      unfold timer_soft in E1. rewrite E1, (A8 eq_refl). exists t. split; [reflexivity|]. unfold means; cbn. auto 10.
  - rewrite find_char_app by assumption. rewrite (seqb_neq name "") by assumption.
    rewrite (seqb_neq _ "") by (destruct vtext; discriminate).
    rewrite find_char_app by assumption. rewrite Hp.
    rewrite is_sign_app by congruence.
    assert (Hfa : find_char "@" (stype_text ty ++ (if bar then "|" else "") ++ String "@" rtext)%string =
       Some ((stype_text ty ++ (if bar then "|" else ""))%string, rtext)).
    { rewrite <- sapp_assoc. apply find_char_app. destruct ty, bar; cbn; repeat split; discriminate. }
    rewrite Hfa. rewrite (seqb_neq _ "") by (destruct ty; discriminate). rewrite Hr.
    destruct ty, bar; cbn [stype_text append]; seqs.
    1,2: rewrite gauge_point; eexists; split; [reflexivity|]; unfold means; cbn; auto 10.
    1,2: eexists; split; [reflexivity|]; unfold means; cbn; auto 10.
    all: destruct (timer_point cfg now base name v (fmul v (fdiv fone rate)) Hc) as (m & t & E1 & E2 & A1 & A2 & A3 & A4 & A5 & A6 & A7 & _);
      unfold timer_soft in E1; rewrite E1, E2; exists t; split; [reflexivity|]; unfold means; cbn; auto 10.
Qed.

Lemma line_ok_says cfg now base src t : statsd_line pf cfg now base src = POk t -> exists s, says pf src s.
Proof.
  unfold statsd_line. destruct (find_char ":" src) as [[name after]|] eqn:E1; [|discriminate].
  apply find_char_some in E1 as [-> Hf1].
  destruct (seqb name "") eqn:En; [discriminate|]. destruct (seqb after "") eqn:Ea; [discriminate|].
  assert (Hn : name <> "") by (intros ->; rewrite seqb_refl in En; discriminate).
  destruct (find_char "|" after) as [[vtext rest]|] eqn:E2; [|discriminate].
  apply find_char_some in E2 as [-> Hf2].
  destruct (pf vtext) as [v|] eqn:Ep; [|discriminate]. cbv zeta.
  destruct (seqb rest "") eqn:Er; [discriminate|].
  destruct (find_char "@" rest) as [[ty stext]|] eqn:E3.
  - apply find_char_some in E3 as [-> _].
    destruct (orb (seqb ty "g|") (seqb ty "g")) eqn:Eg; [|destruct (orb (seqb ty "c|") (seqb ty "c")) eqn:Ec; [|destruct (orb (orb (seqb ty "ms") (seqb ty "ms|")) (orb (seqb ty "h") (seqb ty "h|"))) eqn:Em; [|discriminate]]].
    all: destruct (pf stext) as [sample|] eqn:Es; [|discriminate]; intros _.
    + apply orb_true_iff in Eg as [Eg|Eg]; apply seqb_eq in Eg; subst ty.
      * eexists. eapply (says_sampled pf _ name vtext v TGauge true stext); eauto.
      * eexists. eapply (says_sampled pf _ name vtext v TGauge false stext); eauto.
    + apply orb_true_iff in Ec as [Ec|Ec]; apply seqb_eq in Ec; subst ty.
      * eexists. eapply (says_sampled pf _ name vtext v TCounter true stext); eauto.
      * eexists. eapply (says_sampled pf _ name vtext v TCounter false stext); eauto.
    + apply orb_true_iff in Em as [Em|Em]; apply orb_true_iff in Em as [Em|Em]; apply seqb_eq in Em; subst ty.
      * eexists. eapply (says_sampled pf _ name vtext v TTimer false stext); eauto.
      * eexists. eapply (says_sampled pf _ name vtext v TTimer true stext); eauto.
      * eexists. eapply (says_sampled pf _ name vtext v THistogram false stext); eauto.
      * eexists. eapply (says_sampled pf _ name vtext v THistogram true stext); eauto.
  - destruct (seqb rest "g") eqn:Eg; [|destruct (orb (seqb rest "ms") (seqb rest "h")) eqn:Em; [|destruct (seqb rest "c") eqn:Ec; [|discriminate]]]; intros _.
    + apply seqb_eq in Eg; subst rest. eexists. eapply (says_plain pf _ name vtext v TGauge); eauto.
    + apply orb_true_iff in Em as [Em|Em]; apply seqb_eq in Em; subst rest.
      * eexists. eapply (says_plain pf _ name vtext v TTimer); eauto.
      * eexists. eapply (says_plain pf _ name vtext v THistogram); eauto.
    + apply seqb_eq in Ec; subst rest. eexists. eapply (says_plain pf _ name vtext v TCounter); eauto.
Qed.

Lemma line_panic_says cfg now base src : cfg_ok cfg -> statsd_line pf cfg now base src <> PPanic.
Proof.
  intros Hc. unfold statsd_line. destruct (find_char ":" src) as [[name after]|]; [|discriminate].
  destruct (seqb name ""); [discriminate|]. destruct (seqb after ""); [discriminate|].
  destruct (find_char "|" after) as [[vtext rest]|]; [|discriminate].
  destruct (pf vtext) as [v|]; [|discriminate]. cbv zeta.
  destruct (seqb rest ""); [discriminate|].
  destruct (find_char "@" rest) as [[ty stext]|].
  - destruct (orb (seqb ty "g|") (seqb ty "g")); [|destruct (orb (seqb ty "c|") (seqb ty "c")); [|destruct (orb (orb (seqb ty "ms") (seqb ty "ms|")) (orb (seqb ty "h") (seqb ty "h|"))); [|discriminate]]].
    all: destruct (pf stext) as [sample|]; [|discriminate].
    + rewrite gauge_point. discriminate.
    + discriminate.
    + destruct (timer_point cfg now base name v (fmul v (fdiv fone sample)) Hc) as (m & t & E1 & E2 & _).
      unfold timer_soft in E1. rewrite E1, E2. discriminate.
  - destruct (seqb rest "g"); [rewrite gauge_point'; discriminate|].
    destruct (orb _ _); [|destruct (seqb rest "c"); discriminate].
    destruct (timer_point cfg now base name v v Hc) as (m & t & E1 & _ & _ & _ & _ & _ & _ & _ & _ & E2).
    unfold timer_soft in E1. rewrite E1, (E2 eq_refl). discriminate.
Qed.

(** lines that say nothing are rejected *)
Lemma line_bad cfg now base src : cfg_ok cfg -> (forall s, ~ says pf src s) -> statsd_line pf cfg now base src = PBad.
Proof.
  intros Hc H. destruct (statsd_line pf cfg now base src) as [t| |] eqn:E; [|reflexivity|].
  - apply line_ok_says in E as (s & Hs). exfalso; eapply H; eauto.
  - exfalso; eapply line_panic_says; eauto.
Qed.

(** a line has one meaning at most *)
Lemma line_iff cfg now base src t : cfg_ok cfg ->
  (statsd_line pf cfg now base src = POk t <-> exists s, says pf src s /\ means cfg now base s t).
Proof.
  intros Hc. split.
  - intros E. destruct (line_ok_says _ _ _ _ _ E) as (s & Hs).
    destruct (line_says cfg now base src s Hc Hs) as (t' & E' & Hm). exists s. split; [exact Hs|]. congruence.
  - intros (s & Hs & Hm). destruct (line_says cfg now base src s Hc Hs) as (t' & E' & Hm').
    rewrite E'. f_equal. eapply means_eq; eauto.
Qed.

(** ** Packets *)
Lemma statsd_loop_res cfg now base ls : forall res, statsd_loop pf cfg now base ls res =
  match statsd_loop pf cfg now base ls [] with
  | PReturn b r => PReturn (match ls with
                            | [] => negb (Nat.eqb (List.length res) 0)
                            | _ => b end) (res ++ r)
  | PPanicked => PPanicked
  end.
Proof.
  induction ls as [|l ls IH]; intros res; cbn [statsd_loop].
  - rewrite app_nil_r. reflexivity.
  - destruct (statsd_line pf cfg now base l); [|rewrite app_nil_r; reflexivity|reflexivity].
    rewrite (IH (res ++ [t])), (IH ([] ++ [t])).
    destruct (statsd_loop pf cfg now base ls []) as [b r|]; [|reflexivity].
    rewrite <- !app_assoc. f_equal. destruct ls; [|reflexivity]. rewrite app_length. cbn. rewrite Nat.add_1_r. reflexivity.
Qed.

Definition line_point (cfg : statsd_cfg) (now : Z) (base : telemetry) (src : string) (t : telemetry) : Prop :=
  exists s, says pf src s /\ means cfg now base s t.

Lemma statsd_loop_iff cfg now base ls : cfg_ok cfg -> forall ts,
  statsd_loop pf cfg now base ls [] = PReturn true ts <-> ls <> [] /\ Forall2 (line_point cfg now base) ls ts.
Proof.
  intros Hc. induction ls as [|l ls IH]; intros ts.
  - cbn. split; [discriminate|intros [H _]; congruence].
  - cbn [statsd_loop]. split.
    + destruct (statsd_line pf cfg now base l) as [t| |] eqn:El; try discriminate.
      rewrite statsd_loop_res. destruct (statsd_loop pf cfg now base ls []) as [b r|] eqn:Er; [|discriminate].
      intros [= Hb <-]. split; [discriminate|]. cbn. constructor; [apply line_iff in El; assumption|].
      destruct ls as [|l' ls'].
      * cbn in Er. inversion Er; subst. constructor.
      * subst b. apply IH. reflexivity.
    + intros [_ HF]. inversion HF as [|? t ? ts' Hl HF' ]; subst. apply line_iff in Hl; [|assumption]. rewrite Hl.
      rewrite statsd_loop_res. destruct ls as [|l' ls'].
      * inversion HF'; subst. reflexivity.
      * destruct (IH ts') as [_ IH2]. rewrite IH2; [reflexivity|]. split; [discriminate|assumption].
Qed.

Lemma statsd_loop_total cfg now base ls : cfg_ok cfg -> forall res, statsd_loop pf cfg now base ls res <> PPanicked.
Proof.
  intros Hc. induction ls as [|l ls IH]; intros res; cbn [statsd_loop]; [discriminate|].
  destruct (statsd_line pf cfg now base l) eqn:E; [apply IH|discriminate|].
  exfalso; eapply line_panic_says; eauto.
Qed.

(** ** Graphite *)
Lemma graphite_harden v name ts base :
  harden 0 (b_timestamp ts (b_kind MSet (b_value v (b_name name (thaw base))))) =
  HOk (mkTelemetry name (VSet v) (t_persist base) (t_tags base) ts None None).
Proof. reflexivity. Qed.

Lemma words_ind (P : list string -> Prop) :
  P [] -> (forall a, P [a]) -> (forall a b, P [a; b]) -> (forall a b c r, P r -> P (a :: b :: c :: r)) -> forall l, P l.
Proof.
  intros H0 H1 H2 H3 l. assert (G : forall n l, List.length l <= n -> P l).
  { induction n as [|n IH]; intros [|a [|b [|c r]]] Hl; cbn in Hl; auto; try lia. apply H3. apply IH. lia. }
  eapply G; eauto.
Qed.

Lemma graphite_res base ws : forall res, graphite_words pf pi base ws res =
  match graphite_words pf pi base ws [] with
  | PReturn b r => PReturn (match ws with [] => negb (Nat.eqb (List.length res) 0) | _ => b end) (res ++ r)
  | PPanicked => PPanicked
  end.
Proof.
  induction ws as [|a|a b|a b c r IH] using words_ind; intros res; cbn [graphite_words]; try (rewrite app_nil_r; reflexivity).
  destruct (pf b); [|rewrite app_nil_r; reflexivity]. destruct (pi c); [|rewrite app_nil_r; reflexivity].
  rewrite graphite_harden. rewrite IH. rewrite (IH ([] ++ _)).
  destruct (graphite_words pf pi base r []) as [x y|]; [|reflexivity]. rewrite <- !app_assoc. f_equal.
  destruct r; [|reflexivity]. rewrite app_length. cbn. rewrite Nat.add_1_r. reflexivity.
Qed.

Lemma graphite_iff base ws : forall ts,
  graphite_words pf pi base ws [] = PReturn true ts <-> ws <> [] /\ triples pf pi base ws ts.
Proof.
  induction ws as [|a|a b|a b c r IH] using words_ind; intros ts.
  - cbn. split; [discriminate|intros [H _]; congruence].
  - cbn. split; [discriminate|intros [_ H]; inversion H].
  - cbn. split; [discriminate|intros [_ H]; inversion H].
  - cbn [graphite_words]. split.
    + destruct (pf b) as [v|] eqn:Ev; [|discriminate]. destruct (pi c) as [t|] eqn:Et; [|discriminate].
      rewrite graphite_harden, graphite_res.
      destruct (graphite_words pf pi base r []) as [x y|] eqn:Er; [|discriminate]. intros [= Hb <-].
      split; [discriminate|]. cbn. econstructor; eauto.
      destruct r as [|a' r']; [cbn in Er; inversion Er; subst; constructor|]. subst x. apply IH. reflexivity.
    + intros [_ H]. inversion H as [|? ? ? v tz t ? rest Ev Et En Evl Ets Ep Etg Eoc Eos Hr]; subst.
      rewrite Ev, Et, graphite_harden, graphite_res.
      destruct t as [n' v' p' tg' ts' oc os]; cbn in *; subst.
      destruct r as [|a' r'].
      * inversion Hr; subst. reflexivity.
      * destruct (IH rest) as [_ IH2]. rewrite IH2; [reflexivity|]. split; [discriminate|assumption].
Qed.
Lemma graphite_total base ws : forall res, graphite_words pf pi base ws res <> PPanicked.
Proof.
  induction ws as [|a|a b|a b c r IH] using words_ind; intros res; cbn [graphite_words]; try discriminate.
  destruct (pf b); [|discriminate]. destruct (pi c); [|discriminate]. rewrite graphite_harden. apply IH.
Qed.

(** ** Source loops *)
(** rejected packets leave nothing behind: only accepted points are sent *)
Lemma source_loop_clean {P} (parse : P -> list telemetry -> pout) ps :
  (forall p r, parse p r <> PPanicked) -> Forall (rejects_clean parse) ps ->
  exists g b, source_loop parse ps [] = Some (accepted_points parse ps, [], g, b) /\
    g = N.of_nat (List.length (filter (accepted parse) ps)) /\
    (g + b)%N = N.of_nat (List.length ps).
Proof.
  intros Ht. induction 1 as [|p ps Hp _ IH].
  - exists 0%N, 0%N. cbn. auto.
  - destruct IH as (g & b & E & Hg & Hb). cbn [source_loop accepted_points flat_map filter]. unfold accepted at 1.
    destruct (parse p []) as [ok r|] eqn:Ep; [|exfalso; eapply Ht; eauto]. destruct ok.
    + rewrite E. exists (g + 1)%N, b. split; [reflexivity|]. cbn [List.length]. lia.
    + assert (r = []) by (eapply Hp; eauto). subst r. rewrite E. exists g, (b + 1)%N. split; [reflexivity|]. cbn [List.length]. lia.
Qed.
End Proofs.
