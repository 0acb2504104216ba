(** * Proofs about self-telemetry. *)
From Verif Require Import Base BaseFacts TelemetryModel InternalModel InternalSpec.
From Coq Require Import Lia Permutation.
Open Scope string_scope. Open Scope list_scope. Open Scope nat_scope.

Lemma counters_nodup : NoDup (map fst counters).
Proof.
  assert (H : forall l : list string, (fix go l := match l with [] => true | a :: r => negb (existsb (String.eqb a) r) && go r end) l = true -> NoDup l).
  { induction l as [|a l IH]; intros H; [constructor|]. apply Bool.andb_true_iff in H as [H1 H2]. constructor; [|exact (IH H2)].
    intros Hin. apply Bool.negb_true_iff in H1. rewrite <- Bool.not_true_iff_false in H1. apply H1. apply existsb_exists. exists a. split; [exact Hin|apply String.eqb_refl]. }
  apply H. reflexivity.
Qed.
Lemma counters_kind i n k : nth_error counters i = Some (n, k) -> k = MSum \/ k = MSet.
Proof.
  intros H. apply nth_error_In in H. assert (G : forallb (fun c => match snd c with MSum | MSet => true | _ => false end) counters = true) by reflexivity.
  rewrite forallb_forall in G. specialize (G _ H). destruct k; try discriminate; auto.
Qed.
Lemma counters_inj i j n k n' k' : nth_error counters i = Some (n, k) -> nth_error counters j = Some (n', k') -> n = n' -> i = j.
Proof.
  intros H1 H2 ->. assert (E1 : nth_error (map fst counters) i = Some n') by (rewrite nth_error_map, H1; reflexivity).
  assert (E2 : nth_error (map fst counters) j = Some n') by (rewrite nth_error_map, H2; reflexivity).
  apply (proj1 (NoDup_nth_error _) counters_nodup); [apply nth_error_Some; rewrite E1; discriminate|congruence].
Qed.
Lemma report_not_counter r : counter_name (report_name r) = false.
Proof. destruct r; reflexivity. Qed.
Lemma counter_is i n k : nth_error counters i = Some (n, k) -> counter_name n = true.
Proof. intros H. apply existsb_exists. exists (n, k). split; [eapply nth_error_In; exact H|apply String.eqb_refl]. Qed.

#[global] Opaque counters.
Section Proofs.
Context `{Q : QLib}.
Lemma atom_point_is now name kind v : kind = MSum \/ kind = MSet -> atom_point now name kind v = Some (count_point name kind (v, now)).
Proof. intros [->| ->]; reflexivity. Qed.
Lemma full_is now r x path : full_telemetry now (report_name r) x (Some [("file_path", path)])
  = Some (mkTelemetry (report_name r) (VSum x) false (Some [("file_path", path)]) now None None).
Proof. reflexivity. Qed.

Variable fwd : bool.
Lemma step_no_panic s a : is_panic s = false -> is_panic (istep fwd s a) = false.
Proof.
  intros H. unfold istep. rewrite H. destruct a; try reflexivity; try exact H.
  - destruct (is_phase s); try reflexivity; try exact H.
    + destruct (nth_error counters i) as [[n k]|] eqn:E; [|reflexivity]. destruct (_ =? 0)%N; [reflexivity|].
      rewrite (atom_point_is _ _ _ _ (counters_kind _ _ _ E)). reflexivity.
    + destruct (is_q s); reflexivity.
  - destruct (is_phase s); try reflexivity; exact H.
Qed.
Lemma run_no_panic l : forall s, is_panic s = false -> is_panic (irun fwd s l) = false.
Proof. induction l as [|a l IH]; intros s H; [exact H|]. cbn. apply IH, step_no_panic, H. Qed.
Lemma run_app l1 l2 s : irun fwd s (l1 ++ l2) = irun fwd (irun fwd s l1) l2.
Proof. apply fold_left_app. Qed.
Lemma run_snoc l a s : irun fwd s (l ++ [a]) = istep fwd (irun fwd s l) a.
Proof. rewrite run_app. reflexivity. Qed.

Lemma points_app a b : points (a ++ b) = points a ++ points b.
Proof. apply flat_map_app. Qed.
Lemma named_app n a b : named n (a ++ b) = named n a ++ named n b.
Proof. apply filter_app. Qed.
Lemma added_app i a b : added i (a ++ b) = (added i a + added i b)%N.
Proof. induction a as [|x a IH]; [reflexivity|]. cbn [app added fold_right] in *. unfold added in *. rewrite IH. destruct x; try reflexivity. destruct (i0 =? i); lia. Qed.
Lemma total_app a b : total (a ++ b) = (total a + total b)%N.
Proof. unfold total. induction a; cbn in *; lia. Qed.
Lemma pushed_app a b : pushed (a ++ b) = pushed a ++ pushed b.
Proof. apply flat_map_app. Qed.

(** Q holds no counters *)
Lemma q_names l : Forall (fun t => counter_name (t_name t) = false) (is_q (irun fwd istate_init l)).
Proof.
  induction l as [|a l IH] using rev_ind; [constructor|]. rewrite run_snoc. pose proof (run_no_panic l istate_init eq_refl) as Hp.
  set (s := irun fwd istate_init l) in *. unfold istep. rewrite Hp. destruct a; try exact IH.
  - rewrite full_is. cbn. constructor; [apply report_not_counter|exact IH].
  - destruct (is_phase s); try exact IH.
    + destruct (nth_error counters i) as [[n k]|] eqn:E; [|exact IH]. destruct (_ =? 0)%N; [exact IH|].
      rewrite (atom_point_is _ _ _ _ (counters_kind _ _ _ E)). exact IH.
    + destruct (is_q s) eqn:Eq; [constructor|]. inversion IH; assumption.
  - destruct (is_phase s); exact IH.
Qed.

(** ** conservation *)
Lemma set_cell_eq i n c : set_cell i n c i = n.
Proof. unfold set_cell. rewrite Nat.eqb_refl. reflexivity. Qed.
Lemma set_cell_ne i j n c : j <> i -> set_cell i n c j = c j.
Proof. intros H. unfold set_cell. destruct (Nat.eqb_spec j i); [contradiction|reflexivity]. Qed.
Lemma only_app i a b : only_added i (a ++ b) -> only_added i a /\ only_added i b.
Proof. intros H. split; intros n Hn; apply (H n); apply in_or_app; auto. Qed.

Lemma conserved i name kind l : fwd = true -> nth_error counters i = Some (name, kind) -> only_added i l -> (added i l < 18446744073709551616)%N ->
  exists vs, named name (points (is_out (irun fwd istate_init l))) = map (count_point name kind) vs
    /\ (total (map fst vs) + is_cells (irun fwd istate_init l) i = added i l)%N /\ Forall (fun v => fst v <> 0%N) vs.
Proof.
  intros Hf Hi. induction l as [|a l IH] using rev_ind; intros Ho Ha; [exists []; repeat constructor|].
  apply only_app in Ho as [Ho Ho1]. rewrite added_app in Ha. rewrite added_app, run_snoc.
  destruct IH as (vs & H1 & H2 & H3); [exact Ho|lia|]. pose proof (run_no_panic l istate_init eq_refl) as Hp.
  pose proof (q_names l) as Hq. set (s := irun fwd istate_init l) in *.
  unfold istep. rewrite Hp. destruct a as [j n|j n|now r x path|now| |].
  - cbn [is_out is_cells]. cbn [added fold_right] in Ha |- *. exists vs. split; [exact H1|]. split; [|exact H3]. destruct (Nat.eqb_spec j i) as [->|Hne].
    + rewrite set_cell_eq. unfold fetch_add. rewrite N.mod_small by lia. lia.
    + rewrite set_cell_ne by congruence. lia.
  - cbn [is_out is_cells]. exists vs. split; [exact H1|]. split; [|exact H3]. cbn [added fold_right].
    destruct (Nat.eq_dec j i) as [->|Hne]; [exfalso; apply (Ho1 n); left; reflexivity|]. rewrite set_cell_ne by congruence. lia.
  - rewrite full_is. cbn [is_out is_cells added fold_right]. exists vs. split; [exact H1|]. split; [lia|exact H3].
  - cbn [added fold_right]. rewrite N.add_0_r. destruct (is_phase s) as [|j| |].
    + cbn. eauto.
    + destruct (nth_error counters j) as [[n k]|] eqn:Ej; [|cbn; eauto]. destruct (N.eqb_spec (is_cells s j) 0) as [Hz|Hz].
      * cbn [is_out is_cells]. exists vs. split; [exact H1|]. split; [|exact H3]. destruct (Nat.eq_dec i j) as [<-|Hne]; [rewrite set_cell_eq|rewrite set_cell_ne by assumption]; lia.
      * rewrite (atom_point_is _ _ _ _ (counters_kind _ _ _ Ej)). cbn [is_out is_cells]. unfold isend. rewrite Hf, points_app, named_app, H1.
        cbn [points flat_map app named filter count_point t_name]. destruct (Nat.eq_dec i j) as [<-|Hne].
        -- rewrite Hi in Ej. injection Ej as <- <-. rewrite String.eqb_refl. exists (vs ++ [(is_cells s i, now)]). rewrite !map_app, total_app, set_cell_eq.
           split; [reflexivity|]. split; [cbn; lia|]. apply Forall_app. split; [exact H3|]. repeat constructor. exact Hz.
        -- destruct (String.eqb_spec n name) as [->|_]; [exfalso; apply Hne; exact (counters_inj _ _ _ _ _ _ Hi Ej eq_refl)|].
           rewrite app_nil_r, set_cell_ne by assumption. exists vs. auto.
    + destruct (is_q s) as [|t q]; cbn [is_out is_cells]; [eauto|]. unfold isend. rewrite Hf, points_app, named_app, H1.
      cbn [points flat_map app named filter]. inversion Hq as [|? ? Ht]; subst. destruct (String.eqb_spec (t_name t) name) as [E|_].
      * exfalso. rewrite E, (counter_is _ _ _ Hi) in Ht. discriminate.
      * rewrite app_nil_r. exists vs. auto.
    + exists vs. auto.
  - exists vs. cbn [added fold_right]. rewrite N.add_0_r. auto.
  - cbn [added fold_right]. rewrite N.add_0_r. destruct (is_phase s); cbn [is_out is_cells]; try (exists vs; auto; fail).
    unfold isend. rewrite Hf, points_app, named_app. cbn. rewrite app_nil_r. exists vs. auto.
Qed.

(** ** Q *)
Lemma q_perm l : fwd = true -> Permutation (uncounted (points (is_out (irun fwd istate_init l))) ++ is_q (irun fwd istate_init l)) (pushed l).
Proof.
  intros Hf. induction l as [|a l IH] using rev_ind; [constructor|]. rewrite run_snoc, pushed_app. pose proof (run_no_panic l istate_init eq_refl) as Hp.
  pose proof (q_names l) as Hq. set (s := irun fwd istate_init l) in *.
  unfold istep. rewrite Hp. destruct a as [j n|j n|now r x path|now| |]; try (cbn [is_out is_q pushed flat_map]; rewrite app_nil_r; exact IH).
  - rewrite full_is. cbn [is_out is_q pushed flat_map app]. rewrite <- IH, <- Permutation_middle. rewrite <- Permutation_cons_append. reflexivity.
  - cbn [pushed flat_map]. rewrite app_nil_r. destruct (is_phase s) as [|j| |]; try exact IH.
    + destruct (nth_error counters j) as [[n k]|] eqn:Ej; [|exact IH]. destruct (_ =? 0)%N; [exact IH|].
      rewrite (atom_point_is _ _ _ _ (counters_kind _ _ _ Ej)). cbn [is_out is_q]. unfold isend. rewrite Hf, points_app. unfold uncounted. rewrite filter_app.
      cbn [points flat_map app filter count_point t_name]. rewrite (counter_is _ _ _ Ej). cbn. rewrite app_nil_r. exact IH.
    + destruct (is_q s) as [|t q]; [exact IH|]. cbn [is_out is_q]. unfold isend. rewrite Hf, points_app. unfold uncounted in *. rewrite filter_app.
      cbn [points flat_map app filter]. inversion Hq as [|? ? Ht]; subst. rewrite Ht. cbn [negb]. rewrite <- app_assoc. exact IH.
  - cbn [pushed flat_map]. rewrite app_nil_r. destruct (is_phase s); try exact IH. cbn [is_out is_q]. unfold isend. rewrite Hf, points_app. unfold uncounted. rewrite filter_app. cbn. rewrite app_nil_r. exact IH.
Qed.

(** ** a sweep takes everything *)
Lemma sweep_from n : forall s now i, fwd = true -> is_panic s = false -> is_phase s = PSweep i -> i + n = List.length counters ->
  is_phase (irun fwd s (repeat (ATick now) n)) = PSweep (List.length counters)
  /\ (forall j, i <= j < List.length counters -> is_cells (irun fwd s (repeat (ATick now) n)) j = 0%N)
  /\ (forall j, j < i -> is_cells (irun fwd s (repeat (ATick now) n)) j = is_cells s j)
  /\ is_q (irun fwd s (repeat (ATick now) n)) = is_q s.
Proof.
  induction n as [|n IH]; intros s now i Hf Hp Hph Hn.
  - unfold irun. cbn [repeat fold_left]. rewrite Hph. split; [f_equal; lia|]. split; [intros; lia|auto].
  - cbn [repeat irun fold_left]. fold (irun fwd). assert (Hi : i < List.length counters) by lia. apply nth_error_Some in Hi.
    destruct (nth_error counters i) as [[name kind]|] eqn:E; [|contradiction].
    assert (G : is_phase (istep fwd s (ATick now)) = PSweep (S i) /\ is_cells (istep fwd s (ATick now)) = set_cell i 0 (is_cells s) /\ is_q (istep fwd s (ATick now)) = is_q s).
    { unfold istep. rewrite Hp, Hph, E. destruct (_ =? 0)%N; [auto|]. rewrite (atom_point_is _ _ _ _ (counters_kind _ _ _ E)). auto. }
    destruct G as (G1 & G2 & G3). pose proof (step_no_panic s (ATick now) Hp) as Hp'.
    destruct (IH (istep fwd s (ATick now)) now (S i) Hf Hp' G1) as (I1 & I2 & I3 & I4); [lia|].
    change (fold_left (istep fwd) (repeat (ATick now) n) (istep fwd s (ATick now))) with (irun fwd (istep fwd s (ATick now)) (repeat (ATick now) n)).
    split; [exact I1|]. split; [|split].
    + intros j Hj. destruct (Nat.eq_dec i j) as [<-|]; [|apply I2; lia]. rewrite (I3 i) by lia. rewrite G2. apply set_cell_eq.
    + intros j Hj. rewrite I3 by lia. rewrite G2. apply set_cell_ne. lia.
    + rewrite I4. exact G3.
Qed.
Lemma drain_all q : forall s now, is_panic s = false -> is_phase s = PDrain -> is_q s = q ->
  is_phase (irun fwd s (repeat (ATick now) (S (List.length q)))) = PPoll /\ is_q (irun fwd s (repeat (ATick now) (S (List.length q)))) = []
  /\ is_cells (irun fwd s (repeat (ATick now) (S (List.length q)))) = is_cells s.
Proof.
  induction q as [|t q IH]; intros s now Hp Hph Hq.
  - unfold irun. cbn [List.length repeat fold_left]. unfold istep. rewrite Hp, Hph, Hq. cbn. auto.
  - cbn [List.length]. remember (S (List.length q)) as m. cbn [repeat irun fold_left]. fold (irun fwd).
    assert (G : is_phase (istep fwd s (ATick now)) = PDrain /\ is_q (istep fwd s (ATick now)) = q /\ is_cells (istep fwd s (ATick now)) = is_cells s) by (unfold istep; rewrite Hp, Hph, Hq; auto).
    destruct G as (G1 & G2 & G3). destruct (IH (istep fwd s (ATick now)) now (step_no_panic _ _ Hp) G1 G2) as (I1 & I2 & I3). subst m.
    change (fold_left (istep fwd) ?l ?x) with (irun fwd x l). rewrite I3, G3. auto.
Qed.
Lemma swept s now : fwd = true -> is_panic s = false -> is_phase s = PPoll ->
  exists n s', irun fwd s (repeat (ATick now) n) = s' /\ is_phase s' = PPoll /\ is_q s' = [] /\ forall i, i < List.length counters -> is_cells s' i = 0%N.
Proof.
  intros Hf Hp Hph.
  assert (H1 : exists s1, irun fwd s (repeat (ATick now) 1) = s1 /\ is_panic s1 = false /\ is_phase s1 = PSweep 0).
  { exists (istep fwd s (ATick now)). split; [reflexivity|]. split; [apply step_no_panic; exact Hp|]. unfold istep. rewrite Hp, Hph, Hf. reflexivity. }
  destruct H1 as (s1 & E1 & Hp1 & H1).
  assert (H2 : exists s2, irun fwd s1 (repeat (ATick now) (List.length counters)) = s2 /\ is_panic s2 = false /\ is_phase s2 = PSweep (List.length counters) /\ forall i, i < List.length counters -> is_cells s2 i = 0%N).
  { destruct (sweep_from (List.length counters) s1 now 0 Hf Hp1 H1 eq_refl) as (S1 & S2 & _ & S4). eexists. split; [reflexivity|]. split; [apply run_no_panic; exact Hp1|]. split; [exact S1|]. intros i Hi. apply S2. lia. }
  destruct H2 as (s2 & E2 & Hp2 & H2 & Hc2).
  assert (H3 : exists s3, irun fwd s2 (repeat (ATick now) 1) = s3 /\ is_panic s3 = false /\ is_phase s3 = PDrain /\ is_cells s3 = is_cells s2).
  { exists (istep fwd s2 (ATick now)). split; [reflexivity|]. split; [apply step_no_panic; exact Hp2|]. unfold istep. rewrite Hp2, H2.
    replace (nth_error counters (List.length counters)) with (@None (string * method)) by (symmetry; apply nth_error_None; lia). auto. }
  destruct H3 as (s3 & E3 & Hp3 & H3 & Hc3).
  destruct (drain_all (is_q s3) s3 now Hp3 H3 eq_refl) as (D1 & D2 & D3). remember (S (List.length (is_q s3))) as m.
  exists (1 + (List.length counters + (1 + m))). eexists. split; [reflexivity|].
  rewrite (repeat_app _ 1 (List.length counters + (1 + m))), run_app, E1, (repeat_app _ (List.length counters) (1 + m)), run_app, E2, (repeat_app _ 1 m), run_app, E3.
  split; [exact D1|]. split; [exact D2|]. intros i Hi. rewrite D3, Hc3. exact (Hc2 i Hi).
Qed.
End Proofs.
