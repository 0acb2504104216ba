(** * Proofs about the avro source. *)
From Verif Require Import Base BaseFacts AvroModel AvroSpec.
Open Scope list_scope. Open Scope nat_scope.

Lemma beqb_eq a b : beqb a b = true <-> a = b.
Proof.
  revert b. induction a as [|x a IH]; intros [|y b]; cbn; try (split; [discriminate|discriminate]); [tauto|].
  rewrite Bool.andb_true_iff, N.eqb_eq, IH. split; [intros [-> ->]; reflexivity|intros [= -> ->]; auto].
Qed.
Lemma be_enc_length k n : List.length (be_enc k n) = k.
Proof. induction k; cbn; auto. Qed.
Lemma take_app a b : take (List.length a) (a ++ b) = Some (a, b).
Proof.
  unfold take. rewrite app_length. destruct (Nat.leb_spec (List.length a) (List.length a + List.length b)); [|lia].
  rewrite firstn_app, skipn_app, firstn_all, skipn_all, Nat.sub_diag, firstn_O, app_nil_r. reflexivity.
Qed.
Lemma take_app_n n a b : List.length a = n -> take n (a ++ b) = Some (a, b).
Proof. intros <-. apply take_app. Qed.
Lemma be_num_acc bs : forall acc, fold_left (fun acc b => acc * 256 + b)%N bs acc =
  (acc * 256 ^ N.of_nat (List.length bs) + be_num bs)%N.
Proof.
  unfold be_num. induction bs as [|b bs IH]; intros acc; cbn [fold_left List.length]; [cbn; lia|].
  rewrite IH, (IH (0 * 256 + b)%N). rewrite Nat2N.inj_succ, N.pow_succ_r'. lia.
Qed.
Lemma be_enc_num k : forall n, be_num (be_enc k n) = (n mod 256 ^ N.of_nat k)%N.
Proof.
  induction k as [|k IH]; intros n; [cbn; rewrite N.mod_1_r; reflexivity|].
  unfold be_num. cbn [be_enc fold_left]. rewrite be_num_acc, be_enc_length, IH, Nat2N.inj_succ, N.pow_succ_r'.
  set (m := (256 ^ N.of_nat k)%N). assert (Hm : m <> 0%N) by (apply N.pow_nonzero; discriminate).
  rewrite (N.mul_comm 256 m), N.mod_mul_r by (auto; discriminate). lia.
Qed.
Lemma take_num_enc k n r : (n < 256 ^ N.of_nat k)%N -> take_num k (be_enc k n ++ r) = Some (n, r).
Proof.
  intros H. unfold take_num. rewrite (take_app_n k) by apply be_enc_length. rewrite be_enc_num, N.mod_small by assumption. reflexivity.
Qed.

Lemma header_enc h rest : (h_version h < 2 ^ 32 /\ h_control h < 2 ^ 32 /\ h_id h < 2 ^ 64 /\ h_order_by h < 2 ^ 64)%N ->
  header_from (be_enc 4 (h_version h) ++ be_enc 4 (h_control h) ++ be_enc 8 (h_id h) ++ be_enc 8 (h_order_by h) ++ rest) = Some (h, rest).
Proof.
  intros (H1 & H2 & H3 & H4). unfold header_from.
  rewrite take_num_enc by exact H1. rewrite take_num_enc by exact H2. rewrite take_num_enc by exact H3. rewrite take_num_enc by exact H4.
  destruct h; reflexivity.
Qed.
Definition collect (kvs m : list (list N * list N)) := fold_left (fun m kv => ainsert beqb (fst kv) (snd kv) m) kvs m.
Lemma kv_enc kvs : Forall (fun kv => List.length (fst kv) < 256 /\ (N.of_nat (List.length (snd kv)) < 65536)%N) kvs ->
  forall m rest, kv_loop (List.length kvs) m (List.concat (map enc_kv kvs) ++ rest) = Some (collect kvs m, rest).
Proof.
  induction 1 as [|[k v] kvs [Hk Hv] _ IH]; intros m rest; [reflexivity|].
  cbn [List.length kv_loop map List.concat]. unfold enc_kv at 1. cbn [fst snd] in *. rewrite <- !app_assoc.
  rewrite take_num_enc by (cbn; lia). rewrite Nat2N.id, take_app.
  rewrite take_num_enc by exact Hv. rewrite Nat2N.id, take_app. rewrite IH. reflexivity.
Qed.
Lemma collect_lookup kvs k : last_value k kvs (alookup beqb k (collect kvs [])).
Proof.
  induction kvs as [|[k' v'] kvs IH] using rev_ind; [intros x []|].
  unfold collect. rewrite fold_left_app. cbn [fold_left fst snd]. fold (collect kvs []).
  destruct (list_eq_dec N.eq_dec k' k) as [->|Hne].
  - rewrite (alookup_ainsert_eq beqb beqb_eq). exists kvs, []. auto.
  - rewrite (alookup_ainsert_ne beqb beqb_eq) by assumption.
    destruct (alookup beqb k (collect kvs [])) as [x|]; cbn [last_value] in *.
    + destruct IH as (l1 & l2 & -> & H). exists l1, (l2 ++ [(k', v')]). split; [rewrite <- app_assoc; reflexivity|].
      intros y Hy. apply in_app_or in Hy as [Hy|[Hy|[]]]; [apply (H y Hy)|congruence].
    + intros x Hx. apply in_app_or in Hx as [Hx|[Hx|[]]]; [apply (IH x Hx)|congruence].
Qed.
Lemma collect_distinct kvs : forall m, NoDup (map fst (m ++ kvs)) -> collect kvs m = m ++ kvs.
Proof.
  induction kvs as [|[k v] kvs IH]; intros m H; [rewrite app_nil_r; reflexivity|]. cbn [collect fold_left fst snd].
  rewrite (ainsert_app_new beqb beqb_eq).
  - fold (collect kvs (m ++ [(k, v)])). rewrite IH; rewrite <- app_assoc; [reflexivity|assumption].
  - rewrite map_app in H. cbn in H. apply NoDup_remove_2 in H. intros Hi. apply H. apply in_or_app. left; assumption.
Qed.

(** ** truncation *)
Lemma take_short n bs : List.length bs < n -> take n bs = None.
Proof. intros H. unfold take. destruct (Nat.leb_spec n (List.length bs)); [lia|reflexivity]. Qed.
Lemma take_num_short n bs : List.length bs < n -> take_num n bs = None.
Proof. intros H. unfold take_num. rewrite take_short by assumption. reflexivity. Qed.
(** a prefix of x ++ rest is a short prefix of x, or x and a prefix of rest *)
Lemma prefix_split (x rest p q : list N) : p ++ q = x ++ rest ->
  List.length p < List.length x \/ exists p', p = x ++ p' /\ p' ++ q = rest.
Proof.
  revert p. induction x as [|a x IH]; intros p E; [right; exists p; auto|].
  destruct p as [|b p]; [left; cbn; lia|]. cbn in E. injection E as -> E. destruct (IH p E) as [H|(p' & -> & H)].
  - left. cbn. lia.
  - right. exists p'. auto.
Qed.
Lemma app_nil_eq {A} (q : list A) : forall p, p ++ q = [] -> q = [].
Proof. intros p E. apply app_eq_nil in E. tauto. Qed.
Lemma kv_trunc kvs : Forall (fun kv => List.length (fst kv) < 256 /\ (N.of_nat (List.length (snd kv)) < 65536)%N) kvs ->
  forall m p q, p ++ q = List.concat (map enc_kv kvs) -> q <> [] -> kv_loop (List.length kvs) m p = None.
Proof.
  induction 1 as [|[k v] kvs [Hk Hv] _ IH]; intros m p q E Hq; [apply app_nil_eq in E; contradiction|].
  cbn [List.length kv_loop]. cbn [map List.concat] in E. unfold enc_kv at 1 in E. cbn [fst snd] in *. rewrite <- !app_assoc in E.
  apply prefix_split in E as [E|(p1 & -> & E)]; [rewrite be_enc_length in E; rewrite take_num_short by assumption; reflexivity|].
  rewrite take_num_enc by (cbn; lia). rewrite Nat2N.id.
  apply prefix_split in E as [E|(p2 & -> & E)]; [rewrite take_short by assumption; reflexivity|]. rewrite take_app.
  apply prefix_split in E as [E|(p3 & -> & E)]; [rewrite be_enc_length in E; rewrite take_num_short by assumption; reflexivity|].
  rewrite take_num_enc by exact Hv. rewrite Nat2N.id.
  apply prefix_split in E as [E|(p4 & -> & E)]; [rewrite take_short by assumption; reflexivity|]. rewrite take_app.
  apply (IH _ p4 q); assumption.
Qed.
Lemma payload_trunc ok h kvs p q : head_ok h kvs -> p ++ q = enc_head h kvs -> q <> [] -> payload_from ok p = APanic.
Proof.
  intros ((H1 & H2 & H3 & H4) & Hl & Hkv & Hv1) E Hq. unfold enc_head in E. unfold payload_from, header_from.
  apply prefix_split in E as [E|(p1 & -> & E)]; [rewrite be_enc_length in E; rewrite take_num_short by assumption; reflexivity|].
  rewrite take_num_enc by exact H1.
  apply prefix_split in E as [E|(p2 & -> & E)]; [rewrite be_enc_length in E; rewrite take_num_short by assumption; reflexivity|].
  rewrite take_num_enc by exact H2.
  apply prefix_split in E as [E|(p3 & -> & E)]; [rewrite be_enc_length in E; rewrite take_num_short by assumption; reflexivity|].
  rewrite take_num_enc by exact H3.
  apply prefix_split in E as [E|(p4 & -> & E)]; [rewrite be_enc_length in E; rewrite take_num_short by assumption; reflexivity|].
  rewrite take_num_enc by exact H4. cbn [h_version].
  destruct (h_version h <? 2)%N eqn:Ev; [apply app_nil_eq in E; contradiction|].
  apply prefix_split in E as [E|(p5 & -> & E)]; [rewrite be_enc_length in E; rewrite take_num_short by assumption; reflexivity|].
  rewrite take_num_enc by (cbn; lia).
  destruct (N.of_nat (List.length kvs) <? 1)%N eqn:E1.
  - apply N.ltb_lt in E1. destruct kvs; [cbn in E; apply app_nil_eq in E; contradiction|cbn [List.length] in E1; lia].
  - rewrite Nat2N.id, (kv_trunc kvs Hkv [] p5 q E Hq). reflexivity.
Qed.

(** ** acknowledgement *)
Lemma upd_eq {V} (f : N -> V) k v : upd f k v k = v.
Proof. unfold upd. rewrite N.eqb_refl. reflexivity. Qed.
Lemma upd_ne {V} (f : N -> V) k v x : x <> k -> upd f k v x = f x.
Proof. intros H. unfold upd. destruct (N.eqb_spec x k); [contradiction|reflexivity]. Qed.
Lemma copies_conn fan c i e : In e (copies fan c i) -> e = (c, i).
Proof. intros H. unfold copies in H. apply repeat_spec in H. assumption. Qed.

Section Ack.
Variable prog : N -> nat -> option bool.
Variable fan : nat.
Notation runs := (aruns prog fan).
Notation step := (astep prog fan).

(** since the current payload was prepared *)
Definition since_prepared (tr : list label) (c : N) (i : nat) (P : list label -> Prop) : Prop :=
  exists t1 t2, tr = t1 ++ LPrepare c i :: t2 /\ ~ In (LPrepare c i) t2 /\ P t2.
Definition resolved_in (c : N) (t : list label) : Prop := exists j, In (LResolve c j) t.

(** bag and trace agree; phases have the right payloads *)
Definition inv (tr : list label) (s : astate) : Prop := forall c,
  let '(i, ph) := s_conn s c in
  match ph with
  | PReady => s_bag s c = None
  | PPrepared | PSent => prog c i = Some true /\
      exists n, s_bag s c = Some n /\ since_prepared tr c i (fun t2 => 0 < n <-> resolved_in c t2)
  | PWoken => prog c i = Some true /\ (exists n, s_bag s c = Some n) /\ since_prepared tr c i (resolved_in c)
  | PRemoved => prog c i = Some true /\ s_bag s c = None /\ since_prepared tr c i (resolved_in c)
  end.

Lemma since_snoc tr c i (P R : list label -> Prop) l : since_prepared tr c i P -> l <> LPrepare c i ->
  (forall t2, P t2 -> R (t2 ++ [l])) -> since_prepared (tr ++ [l]) c i R.
Proof.
  intros (t1 & t2 & -> & Hn & HP) Hl HR. exists t1, (t2 ++ [l]). split; [rewrite <- app_assoc; reflexivity|]. split; [|auto].
  intros H. apply in_app_or in H as [H|[H|[]]]; congruence.
Qed.
Lemma resolved_snoc c t l : resolved_in c (t ++ [l]) <-> resolved_in c t \/ exists j, l = LResolve c j.
Proof.
  unfold resolved_in. split.
  - intros (j & H). apply in_app_or in H as [H|[H|[]]]; eauto.
  - intros [(j & H)|(j & ->)]; exists j; apply in_or_app; [left; assumption|right; left; reflexivity].
Qed.

(** what a step leaves alone for other connections *)
Lemma inv_frame tr s l c i ph : inv tr s -> s_conn s c = (i, ph) -> (forall j, l <> LPrepare c j) -> (forall j, l <> LResolve c j) ->
  match ph with
  | PReady => s_bag s c = None
  | PPrepared | PSent => prog c i = Some true /\
      exists n, s_bag s c = Some n /\ since_prepared (tr ++ [l]) c i (fun t2 => 0 < n <-> resolved_in c t2)
  | PWoken => prog c i = Some true /\ (exists n, s_bag s c = Some n) /\ since_prepared (tr ++ [l]) c i (resolved_in c)
  | PRemoved => prog c i = Some true /\ s_bag s c = None /\ since_prepared (tr ++ [l]) c i (resolved_in c)
  end.
Proof.
  intros HI Hc Hl Hr. specialize (HI c). rewrite Hc in HI.
  assert (R : forall t, resolved_in c (t ++ [l]) <-> resolved_in c t).
  { intros t. rewrite resolved_snoc. split; [intros [H|(j & H)]; [assumption|exfalso; eapply Hr; eauto]|tauto]. }
  destruct ph.
  - assumption.
  - destruct HI as (H1 & n & H2 & H3). split; [assumption|]. exists n. split; [assumption|].
    eapply since_snoc; eauto. cbv beta. intros t2 Ht. rewrite R. assumption.
  - destruct HI as (H1 & n & H2 & H3). split; [assumption|]. exists n. split; [assumption|].
    eapply since_snoc; eauto. cbv beta. intros t2 Ht. rewrite R. assumption.
  - destruct HI as (H1 & H2 & H3). split; [assumption|]. split; [assumption|]. eapply since_snoc; eauto. intros t2 Ht. rewrite R. assumption.
  - destruct HI as (H1 & H2 & H3). split; [assumption|]. split; [assumption|]. eapply since_snoc; eauto. intros t2 Ht. rewrite R. assumption.
Qed.

Lemma runs_inv tr s : runs tr s -> inv tr s.
Proof.
  induction 1 as [|tr s l s' Hrun IH Hstep]; [intros c; cbn; reflexivity|].
  intros c. destruct Hstep as [s c0 i Hc Hp|s c0 i Hc|s c0 i Hc Hp|s c0 i Hc Hb|s c0 i Hc|s c0 i Hc|s c0 i f1 f2 Hf|s c0 i f1 f2 Hf];
    cbn [s_conn s_bag s_flight].
  - destruct (N.eq_dec c c0) as [->|Hne].
    + rewrite !upd_eq. split; [assumption|]. exists 0. split; [reflexivity|].
      exists tr, []. split; [reflexivity|]. split; [intros []|]. split; [lia|intros (j & [])].
    + rewrite !upd_ne by assumption. destruct (s_conn s c) as [i' ph] eqn:E.
      apply (inv_frame tr s _ c i' ph IH E); congruence.
  - destruct (N.eq_dec c c0) as [->|Hne].
    + rewrite upd_eq. apply (inv_frame tr s (LSend c0 i) c0 i PPrepared IH Hc); congruence.
    + rewrite upd_ne by assumption. destruct (s_conn s c) as [i' ph] eqn:E. apply (inv_frame tr s _ c i' ph IH E); congruence.
  - destruct (N.eq_dec c c0) as [->|Hne].
    + rewrite upd_eq. specialize (IH c0). rewrite Hc in IH. assumption.
    + rewrite upd_ne by assumption. destruct (s_conn s c) as [i' ph] eqn:E. apply (inv_frame tr s _ c i' ph IH E); congruence.
  - destruct (N.eq_dec c c0) as [->|Hne].
    + rewrite upd_eq. pose proof (inv_frame tr s (LWake c0 i) c0 i PSent IH Hc ltac:(congruence) ltac:(congruence)) as (H1 & n & H2 & (t1 & t2 & H3 & H4 & H5)).
      split; [assumption|]. split; [eauto|]. exists t1, t2. split; [assumption|]. split; [assumption|]. apply H5.
      rewrite H2 in Hb. destruct n; [congruence|lia].
    + rewrite upd_ne by assumption. destruct (s_conn s c) as [i' ph] eqn:E. apply (inv_frame tr s _ c i' ph IH E); congruence.
  - destruct (N.eq_dec c c0) as [->|Hne].
    + rewrite !upd_eq. pose proof (inv_frame tr s (LRemove c0 i) c0 i PWoken IH Hc ltac:(congruence) ltac:(congruence)) as (H1 & H2 & H3). auto.
    + rewrite !upd_ne by assumption. destruct (s_conn s c) as [i' ph] eqn:E. apply (inv_frame tr s _ c i' ph IH E); congruence.
  - destruct (N.eq_dec c c0) as [->|Hne].
    + rewrite upd_eq. specialize (IH c0). rewrite Hc in IH. tauto.
    + rewrite upd_ne by assumption. destruct (s_conn s c) as [i' ph] eqn:E. apply (inv_frame tr s _ c i' ph IH E); congruence.
  - destruct (N.eq_dec c c0) as [->|Hne].
    + pose proof (IH c0) as HI. destruct (s_conn s c0) as [i' ph].
      assert (R : forall t, resolved_in c0 (t ++ [LResolve c0 i])) by (intros t; apply resolved_snoc; right; eauto).
      destruct ph.
      * rewrite HI. assumption.
      * destruct HI as (H1 & n & H2 & H3). rewrite H2, upd_eq. split; [assumption|]. exists (S n). split; [reflexivity|].
        eapply since_snoc; eauto; [discriminate|]. intros t2 _. split; [auto|lia].
      * destruct HI as (H1 & n & H2 & H3). rewrite H2, upd_eq. split; [assumption|]. exists (S n). split; [reflexivity|].
        eapply since_snoc; eauto; [discriminate|]. intros t2 _. split; [auto|lia].
      * destruct HI as (H1 & (n & H2) & H3). rewrite H2, upd_eq. split; [assumption|]. split; [eauto|]. eapply since_snoc; eauto; discriminate.
      * destruct HI as (H1 & H2 & H3). rewrite H2. split; [assumption|]. split; [assumption|]. eapply since_snoc; eauto; discriminate.
    + assert (Eb : (match s_bag s c0 with Some n => upd (s_bag s) c0 (Some (S n)) | None => s_bag s end) c = s_bag s c)
        by (destruct (s_bag s c0); [apply upd_ne; assumption|reflexivity]).
      rewrite Eb. destruct (s_conn s c) as [i' ph] eqn:E. apply (inv_frame tr s _ c i' ph IH E); congruence.
  - destruct (s_conn s c) as [i' ph] eqn:E. apply (inv_frame tr s _ c i' ph IH E); congruence.
Qed.

(** every label of a run was a step *)
Lemma runs_split tr s : runs tr s -> forall t1 l t2, tr = t1 ++ l :: t2 ->
  exists s1 s2, runs t1 s1 /\ step s1 l s2.
Proof.
  induction 1 as [|tr s l s' Hrun IH Hstep]; intros t1 l0 t2 E; [destruct t1; discriminate|].
  destruct (list_eq_dec (fun a b : unit => match a, b with tt, tt => left eq_refl end) (map (fun _ => tt) t2) []) as [H0|H0].
  - destruct t2; [|discriminate]. apply app_inj_tail in E as [-> ->]. eauto.
  - assert (Ht : t2 <> []) by (intros ->; apply H0; reflexivity). destruct (exists_last Ht) as (t2' & x & ->).
    rewrite app_comm_cons, app_assoc in E. apply app_inj_tail in E as [E _]. eapply IH; eauto.
Qed.

(** ** when all payloads are synchronous and there is one forward *)
Definition mine (c : N) (l : list (N * nat)) : list (N * nat) := filter (fun e => (fst e =? c)%N) l.
Definition strict (tr : list label) (s : astate) : Prop := forall c,
  let '(i, ph) := s_conn s c in
  match ph with
  | PReady => mine c (s_flight s) = []
  | PPrepared => s_bag s c = Some 0 /\ mine c (s_flight s) = []
  | PSent => exists n, s_bag s c = Some n /\
       ((n = 0 /\ (mine c (s_flight s) = [] \/ mine c (s_flight s) = [(c, i)])) \/
        (n <> 0 /\ mine c (s_flight s) = [] /\ In (LResolve c i) tr))
  | PWoken | PRemoved => mine c (s_flight s) = [] /\ In (LResolve c i) tr
  end.
Lemma mine_app c a b : mine c (a ++ b) = mine c a ++ mine c b.
Proof. apply filter_app. Qed.
Lemma mine_copies_ne c c' i : c <> c' -> mine c (copies fan c' i) = [].
Proof.
  intros H. unfold mine, copies. induction fan; [reflexivity|]. cbn. destruct (N.eqb_spec c' c); [congruence|assumption].
Qed.
Lemma in_snoc {A} (x : A) l y : In x l -> In x (l ++ [y]).
Proof. intros H. apply in_or_app. left; assumption. Qed.
Lemma strict_frame tr s l c i ph : strict tr s -> s_conn s c = (i, ph) ->
  match ph with
  | PReady => mine c (s_flight s) = []
  | PPrepared => s_bag s c = Some 0 /\ mine c (s_flight s) = []
  | PSent => exists n, s_bag s c = Some n /\
       ((n = 0 /\ (mine c (s_flight s) = [] \/ mine c (s_flight s) = [(c, i)])) \/
        (n <> 0 /\ mine c (s_flight s) = [] /\ In (LResolve c i) (tr ++ [l])))
  | PWoken | PRemoved => mine c (s_flight s) = [] /\ In (LResolve c i) (tr ++ [l])
  end.
Proof.
  intros HI Hc. specialize (HI c). rewrite Hc in HI. destruct ph; try assumption.
  - destruct HI as (n & H1 & [H2|(H2 & H3 & H4)]); exists n; (split; [assumption|]); [left; assumption|right].
    split; [assumption|]. split; [assumption|]. apply in_snoc; assumption.
  - destruct HI as [H1 H2]. split; [assumption|apply in_snoc; assumption].
  - destruct HI as [H1 H2]. split; [assumption|apply in_snoc; assumption].
Qed.
Lemma mine_remove_ne c c0 i f1 f2 : c <> c0 -> mine c (f1 ++ f2) = mine c (f1 ++ (c0, i) :: f2).
Proof.
  intros H. rewrite !mine_app. cbn. destruct (N.eqb_spec c0 c); [congruence|reflexivity].
Qed.
Lemma mine_remove_eq c i f1 f2 e : mine c (f1 ++ (c, i) :: f2) = [e] -> e = (c, i) /\ mine c (f1 ++ f2) = [].
Proof.
  rewrite !mine_app. cbn. rewrite N.eqb_refl. intros H. destruct (mine c f1) as [|x [|]]; cbn in H.
  - injection H as -> H. auto.
  - discriminate.
  - discriminate.
Qed.
Lemma mine_has c i f1 f2 : mine c (f1 ++ (c, i) :: f2) <> [].
Proof. rewrite mine_app. cbn. rewrite N.eqb_refl. destruct (mine c f1); discriminate. Qed.

Lemma runs_strict tr s : (forall c i, prog c i <> Some false) -> fan <= 1 -> runs tr s -> strict tr s.
Proof.
  intros Hsync Hfan. induction 1 as [|tr s l s' Hrun IH Hstep]; [intros c; cbn; reflexivity|].
  intros c. destruct Hstep as [s c0 i Hc Hp|s c0 i Hc|s c0 i Hc Hp|s c0 i Hc Hb|s c0 i Hc|s c0 i Hc|s c0 i f1 f2 Hf|s c0 i f1 f2 Hf];
    cbn [s_conn s_bag s_flight].
  - destruct (N.eq_dec c c0) as [->|Hne].
    + rewrite !upd_eq. split; [reflexivity|]. specialize (IH c0). rewrite Hc in IH. assumption.
    + rewrite !upd_ne by assumption. destruct (s_conn s c) as [i' ph] eqn:E. apply (strict_frame tr s _ c i' ph IH E).
  - destruct (N.eq_dec c c0) as [->|Hne].
    + rewrite upd_eq. specialize (IH c0). rewrite Hc in IH. destruct IH as [H1 H2]. exists 0. split; [assumption|]. left. split; [reflexivity|].
      rewrite mine_app, H2. unfold copies. destruct fan as [|[|f]]; [left; reflexivity|right|lia]. cbn. rewrite N.eqb_refl. reflexivity.
    + rewrite upd_ne by assumption. rewrite mine_app, mine_copies_ne, app_nil_r by assumption.
      destruct (s_conn s c) as [i' ph] eqn:E. apply (strict_frame tr s _ c i' ph IH E).
  - exfalso. eapply Hsync; eauto.
  - destruct (N.eq_dec c c0) as [->|Hne].
    + rewrite upd_eq. pose proof (strict_frame tr s (LWake c0 i) c0 i PSent IH Hc) as (n & H1 & [[-> H2]|(H2 & H3 & H4)]); [congruence|auto].
    + rewrite upd_ne by assumption. destruct (s_conn s c) as [i' ph] eqn:E. apply (strict_frame tr s _ c i' ph IH E).
  - destruct (N.eq_dec c c0) as [->|Hne].
    + rewrite upd_eq. apply (strict_frame tr s _ c0 i PWoken IH Hc).
    + rewrite !upd_ne by assumption. destruct (s_conn s c) as [i' ph] eqn:E. apply (strict_frame tr s _ c i' ph IH E).
  - destruct (N.eq_dec c c0) as [->|Hne].
    + rewrite upd_eq. specialize (IH c0). rewrite Hc in IH. tauto.
    + rewrite !upd_ne by assumption. destruct (s_conn s c) as [i' ph] eqn:E. apply (strict_frame tr s _ c i' ph IH E).
  - destruct (N.eq_dec c c0) as [->|Hne].
    + pose proof (mine_has c0 i f1 f2) as Hm. rewrite <- Hf in Hm. specialize (IH c0). destruct (s_conn s c0) as [i' ph]. destruct ph.
      * contradiction.
      * destruct IH; contradiction.
      * destruct IH as (n & H1 & [[-> [H2|H2]]|(_ & H2 & _)]); try contradiction.
        rewrite Hf in H2. apply mine_remove_eq in H2 as [[= ->] H2]. rewrite H1, upd_eq. exists 1. split; [reflexivity|]. right.
        split; [discriminate|]. split; [assumption|]. apply in_or_app; right; left; reflexivity.
      * destruct IH; contradiction.
      * destruct IH; contradiction.
    + assert (Eb : (match s_bag s c0 with Some n => upd (s_bag s) c0 (Some (S n)) | None => s_bag s end) c = s_bag s c)
        by (destruct (s_bag s c0); [apply upd_ne; assumption|reflexivity]).
      rewrite Eb, (mine_remove_ne c c0 i) by assumption. rewrite <- Hf.
      destruct (s_conn s c) as [i' ph] eqn:E. apply (strict_frame tr s _ c i' ph IH E).
  - destruct (N.eq_dec c c0) as [->|Hne].
    + pose proof (mine_has c0 i f1 f2) as Hm. rewrite <- Hf in Hm. specialize (IH c0). destruct (s_conn s c0) as [i' ph]. destruct ph.
      * contradiction.
      * destruct IH; contradiction.
      * destruct IH as (n & H1 & [[-> [H2|H2]]|(_ & H2 & _)]); try contradiction.
        rewrite Hf in H2. apply mine_remove_eq in H2 as [[= ->] H2]. exists 0. auto.
      * destruct IH; contradiction.
      * destruct IH; contradiction.
    + rewrite (mine_remove_ne c c0 i) by assumption. rewrite <- Hf.
      destruct (s_conn s c) as [i' ph] eqn:E. apply (strict_frame tr s _ c i' ph IH E).
Qed.

(** ** each payload is acknowledged at most once *)
Lemma runs_ack_bound tr s c : runs tr s -> forall i, In (LAck c i) tr -> i < fst (s_conn s c).
Proof.
  induction 1 as [|tr s l s' Hrun IH Hstep]; intros i Hi; [destruct Hi|].
  assert (G : fst (s_conn s c) <= fst (s_conn s' c)).
  { destruct Hstep as [s c0 j Hc Hp|s c0 j Hc|s c0 j Hc Hp|s c0 j Hc Hb|s c0 j Hc|s c0 j Hc|s c0 j f1 f2 Hf|s c0 j f1 f2 Hf]; cbn [s_conn]; try lia;
      (destruct (N.eq_dec c c0) as [->|Hne]; [rewrite upd_eq, Hc; cbn; lia|rewrite upd_ne by assumption; lia]). }
  apply in_app_or in Hi as [Hi|[Hi|[]]]; [specialize (IH i Hi); lia|]. subst l. inversion Hstep; subst. cbn. rewrite upd_eq. cbn. lia.
Qed.
Lemma runs_ack_NoDup tr s : runs tr s -> forall c i, count_occ (fun a b : bool => Bool.bool_dec a b)
   (map (fun l => match l with LAck c' i' => andb (c' =? c)%N (i' =? i) | _ => false end) tr) true <= 1.
Proof.
  induction 1 as [|tr s l s' Hrun IH Hstep]; intros c i; [cbn; lia|].
  rewrite map_app, count_occ_app. specialize (IH c i). cbn [map count_occ].
  destruct (Bool.bool_dec _ true) as [E|E]; [|lia].
  destruct l as [| | | |c' i'| |]; try discriminate. apply Bool.andb_true_iff in E as [E1 E2]. apply N.eqb_eq in E1. apply Nat.eqb_eq in E2. subst c' i'.
  assert (Hz : count_occ (fun a b : bool => Bool.bool_dec a b) (map (fun l => match l with LAck c' i' => andb (c' =? c)%N (i' =? i) | _ => false end) tr) true = 0).
  { apply count_occ_not_In. intros Hin. apply in_map_iff in Hin as (l & E & Hl). destruct l as [| | | |c' i'| |]; try discriminate.
    apply Bool.andb_true_iff in E as [E1 E2]. apply N.eqb_eq in E1. apply Nat.eqb_eq in E2. subst c' i'.
    pose proof (runs_ack_bound tr s c Hrun i Hl) as B. inversion Hstep as [| | | | |? ? ? Hc| |]; subst. rewrite Hc in B. cbn in B. lia. }
  lia.
Qed.

(** ** an early acknowledgement is kept *)
Definition sent_already (s : astate) (c : N) (j : nat) : Prop :=
  let '(i, ph) := s_conn s c in j < i \/ (j = i /\ (ph = PSent \/ ph = PWoken \/ ph = PRemoved)).
Definition kept (tr : list label) (s : astate) : Prop := forall c,
  (forall j, In (c, j) (s_flight s) \/ In (LResolve c j) tr -> sent_already s c j) /\
  (forall i, s_conn s c = (i, PSent) -> In (LResolve c i) tr -> s_bag s c <> Some 0).
Lemma runs_kept tr s : runs tr s -> kept tr s.
Proof.
  induction 1 as [|tr s l s' Hrun IH Hstep].
  { intros c. split; [intros j [[]|[]]|]. intros i H. discriminate. }
  intros c. destruct (IH c) as [I1 I2]. unfold sent_already in *.
  assert (NR : forall j, (forall k, l <> LResolve c k) -> In (LResolve c j) (tr ++ [l]) -> In (LResolve c j) tr).
  { intros j Hl Hi. apply in_app_or in Hi as [Hi|[Hi|[]]]; [assumption|exfalso; eapply Hl; eauto]. }
  destruct Hstep as [s c0 i Hc Hp|s c0 i Hc|s c0 i Hc Hp|s c0 i Hc Hb|s c0 i Hc|s c0 i Hc|s c0 i f1 f2 Hf|s c0 i f1 f2 Hf];
    cbn [s_conn s_bag s_flight].
  - specialize (fun j => NR j ltac:(discriminate)). destruct (N.eq_dec c c0) as [->|Hne].
    + rewrite !upd_eq. rewrite Hc in I1. split; [|intros k [=]]. intros j Hj. left.
      destruct (I1 j) as [H|[_ [H|[H|H]]]]; try discriminate; [destruct Hj; auto|assumption].
    + rewrite !upd_ne by assumption. split; [|eauto]. intros j [Hj|Hj]; apply I1; auto.
  - specialize (fun j => NR j ltac:(discriminate)). destruct (N.eq_dec c c0) as [->|Hne].
    + rewrite upd_eq. rewrite Hc in I1.
      assert (J : forall j, In (c0, j) (s_flight s) \/ In (LResolve c0 j) tr -> j < i).
      { intros j Hj. destruct (I1 j Hj) as [H|[_ [H|[H|H]]]]; try discriminate. assumption. }
      split.
      * intros j [Hj|Hj]; [apply in_app_or in Hj as [Hj|Hj]|].
        -- left. auto.
        -- apply copies_conn in Hj. injection Hj as ->. right. auto.
        -- left. auto.
      * intros k [= <-] Hk. exfalso. specialize (J i (or_intror (NR i Hk))). lia.
    + rewrite !upd_ne by assumption. split; [|eauto]. intros j [Hj|Hj]; [|apply I1; auto].
      apply in_app_or in Hj as [Hj|Hj]; [apply I1; auto|]. apply copies_conn in Hj. injection Hj as -> _; contradiction.
  - specialize (fun j => NR j ltac:(discriminate)). destruct (N.eq_dec c c0) as [->|Hne].
    + rewrite upd_eq. rewrite Hc in I1. split; [|intros k [=]]. intros j [Hj|Hj]; left.
      * apply in_app_or in Hj as [Hj|Hj]; [|apply copies_conn in Hj; injection Hj as ->; lia].
        destruct (I1 j (or_introl Hj)) as [H|[_ [H|[H|H]]]]; try discriminate. lia.
      * destruct (I1 j (or_intror (NR j Hj))) as [H|[_ [H|[H|H]]]]; try discriminate. lia.
    + rewrite !upd_ne by assumption. split; [|eauto]. intros j [Hj|Hj]; [|apply I1; auto].
      apply in_app_or in Hj as [Hj|Hj]; [apply I1; auto|]. apply copies_conn in Hj. injection Hj as -> _; contradiction.
  - specialize (fun j => NR j ltac:(discriminate)). destruct (N.eq_dec c c0) as [->|Hne].
    + rewrite upd_eq. rewrite Hc in I1. split; [|intros k [=]]. intros j Hj.
      destruct (I1 j) as [H|[H _]]; [destruct Hj; auto|left; assumption|right; auto].
    + rewrite !upd_ne by assumption. split; [|eauto]. intros j [Hj|Hj]; apply I1; auto.
  - specialize (fun j => NR j ltac:(discriminate)). destruct (N.eq_dec c c0) as [->|Hne].
    + rewrite !upd_eq. rewrite Hc in I1. split; [|intros k [=]]. intros j Hj.
      destruct (I1 j) as [H|[H _]]; [destruct Hj; auto|left; assumption|right; auto].
    + rewrite !upd_ne by assumption. split; [|eauto]. intros j [Hj|Hj]; apply I1; auto.
  - specialize (fun j => NR j ltac:(discriminate)). destruct (N.eq_dec c c0) as [->|Hne].
    + rewrite upd_eq. rewrite Hc in I1. split; [|intros k [=]]. intros j Hj. left.
      destruct (I1 j) as [H|[H _]]; [destruct Hj; auto|lia|lia].
    + rewrite !upd_ne by assumption. split; [|eauto]. intros j [Hj|Hj]; apply I1; auto.
  - assert (Hsub : forall e, In e (f1 ++ f2) -> In e (s_flight s)).
    { intros e He. rewrite Hf. apply in_app_or in He as [He|He]; apply in_or_app; [left|right; right]; assumption. }
    assert (H0 : In (c0, i) (s_flight s)) by (rewrite Hf; apply in_or_app; right; left; reflexivity).
    split.
    + intros j [Hj|Hj]; [apply I1; auto|]. apply in_app_or in Hj as [Hj|[Hj|[]]]; [apply I1; auto|]. injection Hj as -> ->. apply I1; auto.
    + intros k Hk Hin. destruct (N.eq_dec c c0) as [->|Hne].
      * pose proof (runs_inv tr s Hrun c0) as HI. rewrite Hk in HI. destruct HI as (_ & n & Hn & _). rewrite Hn, upd_eq. discriminate.
      * assert (Eb : (match s_bag s c0 with Some n => upd (s_bag s) c0 (Some (S n)) | None => s_bag s end) c = s_bag s c)
          by (destruct (s_bag s c0); [apply upd_ne; assumption|reflexivity]).
        rewrite Eb. apply (I2 k Hk). apply NR; [congruence|assumption].
  - assert (Hsub : forall e, In e (f1 ++ f2) -> In e (s_flight s)).
    { intros e He. rewrite Hf. apply in_app_or in He as [He|He]; apply in_or_app; [left|right; right]; assumption. }
    specialize (fun j => NR j ltac:(discriminate)). split; [|eauto]. intros j [Hj|Hj]; apply I1; auto.
Qed.
End Ack.
