(** * Properties C53, C54, C59, C74: flush timer, thread pool, listener tokens. *)
From Verif Require Import Base BaseFacts TelemetryModel FlowModel FlowSpec FlowProofs RuntimeModel QExample.
Open Scope list_scope. Open Scope nat_scope.

(** ** C53 *)
(** the pulses [from+1 .. from+k] *)
Definition pulses `{Q : QLib} (from : N) (k : nat) : list event := map (fun j => ETimerFlush (from + 1 + N.of_nat j)) (seq 0 k).

Lemma timer_run_spec `{Q : QLib} : forall k idx cs, (idx + N.of_nat k < 2 ^ 64)%N ->
  timer_run k (idx, cs) = ((idx + N.of_nat k)%N, fst (send_all cs (pulses idx k))).
Proof.
  induction k as [|k IH]; intros idx cs H.
  - cbn [timer_run pulses seq map send_all fst]. f_equal. lia.
  - cbn [timer_run]. unfold timer_turn. rewrite N.mod_small by lia. rewrite IH by lia. f_equal; [lia|].
    unfold pulses. cbn [seq map send_all]. replace (idx + 1 + N.of_nat 0)%N with (idx + 1)%N by lia.
    destruct (send cs (ETimerFlush (idx + 1))) as [cs' d] eqn:E. cbn [fst]. rewrite <- seq_shift, map_map.
    rewrite (map_ext (fun x => ETimerFlush (idx + 1 + N.of_nat (S x))) (fun j => ETimerFlush (idx + 1 + 1 + N.of_nat j))) by (intros j; f_equal; lia).
    destruct (send_all cs' _). reflexivity.
Qed.
(** Every forward is offered 1, 2, 3, ...: its queue holds, in order, the pulses it
    accepted.  Missing: more than 2^64 - 1 pulses. *)
Theorem C53_pulses_partial : forall `{Q : QLib} turns cs, (N.of_nat turns < 2 ^ 64)%N ->
  exists verdicts, Forall3 (fun c c' vs => List.length vs = turns /\ settles_all (c_answers c) vs (c_answers c') /\
      c_queue c' = c_queue c ++ kept vs (map (fun j => ETimerFlush (N.of_nat j)) (seq 1 turns)))
    cs (snd (timer_run turns (0%N, cs))) verdicts.
Proof.
  intros Q turns cs H. rewrite timer_run_spec by lia. cbn [snd]. destruct (send_all_spec (pulses 0 turns) cs) as (vss & H1 & _).
  assert (E : pulses 0 turns = map (fun j => ETimerFlush (N.of_nat j)) (seq 1 turns)).
  { unfold pulses. rewrite <- seq_shift, map_map. apply map_ext. intros j. f_equal. lia. }
  exists vss. rewrite E in *. rewrite map_length, seq_length in H1. exact H1.
Qed.
(** then the index wraps *)
Theorem C53_wraps_refuted : exists turns, forall (Q : QLib),
  timer_run turns (0%N, [mkChan [] []]) = (0%N, [mkChan (map (fun j => ETimerFlush (N.of_nat j)) (seq 1 (turns - 1)) ++ [ETimerFlush 0]) []]).
Proof.
  exists (S (N.to_nat (2 ^ 64 - 1))). intros Q.
  assert (G : forall k s, timer_run (S k) s = timer_turn (timer_run k s)).
  { clear. induction k as [|k IH]; intros s; [reflexivity|]. change (timer_run (S (S k)) s) with (timer_run (S k) (timer_turn s)). rewrite IH. reflexivity. }
  assert (S1 : forall evs q, fst (send_all [mkChan q []] evs) = [mkChan (q ++ evs) []]).
  { clear. induction evs as [|e evs IH]; intros q; cbn [send_all]; [rewrite app_nil_r; reflexivity|]. cbn. specialize (IH (q ++ [e])). destruct (send_all [mkChan (q ++ [e]) []] evs). cbn in *. rewrite IH, <- app_assoc. reflexivity. }
  rewrite G, timer_run_spec, S1 by lia. replace (S (N.to_nat (2 ^ 64 - 1)) - 1) with (N.to_nat (2 ^ 64 - 1)) by lia. set (k := N.to_nat (2 ^ 64 - 1)).
  assert (Ek : (0 + N.of_nat k + 1)%N = (2 ^ 64)%N) by (unfold k; rewrite N2Nat.id; reflexivity). clearbody k.
  unfold timer_turn. rewrite Ek, N.mod_same by discriminate. cbn [send send_rest chan_send c_queue c_answers chan_send_loop fst List.app]. do 4 f_equal.
  unfold pulses. rewrite <- seq_shift, map_map. apply map_ext. intros j. f_equal. lia.
Qed.
Example C53_ex : timer_run (Q := xQ) 3 (0%N, [mkChan [] []; mkChan [] [SOther; SOk; SFull]]) =
  (3%N, [mkChan [ETimerFlush 1; ETimerFlush 2; ETimerFlush 3] []; mkChan [ETimerFlush 1; ETimerFlush 3] []]).
Proof. reflexivity. Qed.
Print Assumptions C53_pulses_partial.
Print Assumptions C53_wraps_refuted.

(** ** C54 *)
Definition stat (p : pool) (id : nat) : option tstat := alookup Nat.eqb id (p_stat p).
Definition held (p : pool) (id : nat) : Prop := In id (map fst (p_threads p)).
(** [hand]: ids whose handles have just been joined by the drain and which are, or
    will be, still on the stack *)
Record pool_inv (p : pool) : Prop := mkPInv {
  pi_stat : forall id, stat p id <> None <-> id < p_next p;
  pi_held_nd : NoDup (map fst (p_threads p));
  pi_joined_nd : NoDup (p_joined p);
  pi_reported_nd : NoDup (p_joinable p ++ p_reported p);
  pi_split : forall id, id < p_next p <-> held p id \/ In id (p_joined p);
  pi_apart : forall id, held p id -> ~ In id (p_joined p);
  pi_done : forall id, In id (p_joinable p ++ p_reported p) <-> stat p id = Some TDone;
  pi_joined_done : forall id, In id (p_joined p) -> stat p id = Some TDone;
}.
Lemma nat_eqb_eq a b : Nat.eqb a b = true <-> a = b. Proof. apply Nat.eqb_eq. Qed.
Lemma pool_new_inv : pool_inv pool_new.
Proof.
  constructor; cbn.
  - intros id. unfold stat. cbn. split; [congruence|lia].
  - constructor.
  - constructor.
  - constructor.
  - intros id. unfold held. cbn. split; [lia|tauto].
  - tauto.
  - intros id. unfold stat. cbn. split; [tauto|discriminate].
  - tauto.
Qed.
Lemma held_lt p id : pool_inv p -> held p id -> id < p_next p.
Proof. intros [_ _ _ _ H _ _ _] Hh. apply H. tauto. Qed.
Lemma spawn_inv p : pool_inv p -> pool_inv (pool_spawn p).
Proof.
  intros I. pose proof I as [H1 H2 H3 H4 H5 H6 H7 H8]. unfold pool_spawn. constructor; cbn [p_next p_joinable p_threads p_stat p_joined p_reported].
  - intros id. unfold stat. cbn [p_stat]. destruct (Nat.eq_dec (p_next p) id) as [<-|Hne].
    + rewrite (alookup_ainsert_eq Nat.eqb nat_eqb_eq). split; [lia|discriminate].
    + rewrite (alookup_ainsert_ne Nat.eqb nat_eqb_eq) by assumption. rewrite (H1 id : _ <-> _). lia.
  - apply ainsert_NoDup; [apply nat_eqb_eq|assumption].
  - assumption.
  - assumption.
  - intros id. unfold held. cbn [p_threads]. rewrite (ainsert_keys Nat.eqb nat_eqb_eq). specialize (H5 id). unfold held in H5. assert (A : forall P R : Prop, ((id = p_next p \/ P) \/ R) <-> (id = p_next p \/ (P \/ R))) by tauto. rewrite A, <- H5. lia.
  - intros id. unfold held. cbn [p_threads]. rewrite (ainsert_keys Nat.eqb nat_eqb_eq). intros [->|Hh]; [|apply H6, Hh].
    intros Hin. assert (p_next p < p_next p) by (apply H5; tauto). lia.
  - intros id. unfold stat. cbn [p_stat]. destruct (Nat.eq_dec (p_next p) id) as [<-|Hne].
    + rewrite (alookup_ainsert_eq Nat.eqb nat_eqb_eq). rewrite H7. split; [|discriminate]. intros E. assert (p_next p < p_next p) by (apply H1; rewrite E; discriminate). lia.
    + rewrite (alookup_ainsert_ne Nat.eqb nat_eqb_eq) by assumption. apply H7.
  - intros id Hin. unfold stat. cbn [p_stat]. destruct (Nat.eq_dec (p_next p) id) as [<-|Hne].
    + exfalso. assert (p_next p < p_next p) by (apply H5; tauto). lia.
    + rewrite (alookup_ainsert_ne Nat.eqb nat_eqb_eq) by assumption. apply H8, Hin.
Qed.
Lemma finish_inv p id : pool_inv p -> pool_inv (pool_finish id p).
Proof.
  intros I. pose proof I as [H1 H2 H3 H4 H5 H6 H7 H8]. unfold pool_finish. destruct (alookup Nat.eqb id (p_stat p)) as [[]|] eqn:E; try exact I.
  assert (Hid : id < p_next p) by (apply H1; unfold stat; rewrite E; discriminate).
  constructor; cbn [p_next p_joinable p_threads p_stat p_joined p_reported].
  - intros x. unfold stat. cbn [p_stat]. destruct (Nat.eq_dec id x) as [<-|Hne].
    + rewrite (alookup_ainsert_eq Nat.eqb nat_eqb_eq). split; [auto|discriminate].
    + rewrite (alookup_ainsert_ne Nat.eqb nat_eqb_eq) by assumption. apply H1.
  - assumption.
  - assumption.
  - rewrite <- app_assoc. cbn [List.app]. apply NoDup_Add with (a := id) (l := p_joinable p ++ p_reported p); [apply Add_app|]. split; [assumption|].
    rewrite H7. unfold stat. rewrite E. discriminate.
  - apply H5.
  - apply H6.
  - intros x. unfold stat. cbn [p_stat]. rewrite <- app_assoc, in_app_iff. cbn [List.app In]. destruct (Nat.eq_dec id x) as [<-|Hne].
    + rewrite (alookup_ainsert_eq Nat.eqb nat_eqb_eq). tauto.
    + rewrite (alookup_ainsert_ne Nat.eqb nat_eqb_eq) by assumption. rewrite <- (H7 x : _ <-> _), in_app_iff. tauto.
  - intros x Hin. unfold stat. cbn [p_stat]. destruct (Nat.eq_dec id x) as [<-|Hne].
    + apply alookup_ainsert_eq, nat_eqb_eq.
    + rewrite (alookup_ainsert_ne Nat.eqb nat_eqb_eq) by assumption. apply H8, Hin.
Qed.
Lemma crash_inv p id : pool_inv p -> pool_inv (pool_crash id p).
Proof.
  intros I. pose proof I as [H1 H2 H3 H4 H5 H6 H7 H8]. unfold pool_crash. destruct (alookup Nat.eqb id (p_stat p)) as [[]|] eqn:E; try exact I.
  assert (Hid : id < p_next p) by (apply H1; unfold stat; rewrite E; discriminate).
  constructor; cbn [p_next p_joinable p_threads p_stat p_joined p_reported]; try assumption.
  - intros x. unfold stat. cbn [p_stat]. destruct (Nat.eq_dec id x) as [<-|Hne].
    + rewrite (alookup_ainsert_eq Nat.eqb nat_eqb_eq). split; [auto|discriminate].
    + rewrite (alookup_ainsert_ne Nat.eqb nat_eqb_eq) by assumption. apply H1.
  - intros x. unfold stat. cbn [p_stat]. destruct (Nat.eq_dec id x) as [<-|Hne].
    + rewrite (alookup_ainsert_eq Nat.eqb nat_eqb_eq), (H7 id). unfold stat. rewrite E. split; discriminate.
    + rewrite (alookup_ainsert_ne Nat.eqb nat_eqb_eq) by assumption. apply H7.
  - intros x Hin. unfold stat. cbn [p_stat]. destruct (Nat.eq_dec id x) as [<-|Hne].
    + apply H8 in Hin. unfold stat in Hin. congruence.
    + rewrite (alookup_ainsert_ne Nat.eqb nat_eqb_eq) by assumption. apply H8, Hin.
Qed.
(** joining one handle *)
Lemma join_one_inv p id : pool_inv p -> held p id -> stat p id = Some TDone ->
  pool_inv (mkPool (p_next p) (p_joinable p) (aremove Nat.eqb id (p_threads p)) (p_stat p) (p_joined p ++ [id]) (p_reported p)).
Proof.
  intros [H1 H2 H3 H4 H5 H6 H7 H8] Hh Hd.
  assert (Hrem : forall x, In x (map fst (aremove Nat.eqb id (p_threads p))) <-> x <> id /\ held p x).
  { intros x. unfold held. split.
    - intros Hx. split; [|apply (aremove_keys_incl Nat.eqb) in Hx; assumption]. intros ->. pose proof (alookup_aremove_eq Nat.eqb nat_eqb_eq id (p_threads p) H2) as E. apply (alookup_None Nat.eqb nat_eqb_eq) in E. tauto.
    - intros [Hne Hx]. destruct (alookup Nat.eqb x (aremove Nat.eqb id (p_threads p))) as [u|] eqn:E.
      + apply (alookup_In Nat.eqb nat_eqb_eq) in E. apply in_map_iff. exists (x, u). auto.
      + rewrite (alookup_aremove_ne Nat.eqb nat_eqb_eq) in E by congruence. apply (alookup_None Nat.eqb nat_eqb_eq) in E. tauto. }
  constructor; cbn [p_next p_joinable p_threads p_stat p_joined p_reported]; try assumption.
  - apply aremove_NoDup, H2.
  - apply NoDup_Add with (a := id) (l := p_joined p ++ []); [apply Add_app|]. rewrite app_nil_r. split; [assumption|]. apply H6, Hh.
  - intros x. unfold held. cbn [p_threads]. rewrite Hrem, in_app_iff, H5. cbn. destruct (Nat.eq_dec x id) as [->|Hne]; [tauto|]. intuition congruence.
  - intros x Hx. unfold held in Hx. cbn [p_threads] in Hx. apply Hrem in Hx as [Hne Hx]. rewrite in_app_iff. cbn. intros [Hx'|[<-|[]]]; [apply (H6 x Hx Hx')|congruence].
  - intros x Hx. apply in_app_or in Hx as [Hx|[<-|[]]]; [apply H8, Hx|exact Hd].
Qed.
(** join_ready never fails, keeps the invariant, and reports the whole stack *)
Lemma join_stack_inv : forall l p, pool_inv (mkPool (p_next p) (rev l) (p_threads p) (p_stat p) (p_joined p) (p_reported p)) ->
  exists p', join_stack l p = Some p' /\ pool_inv p' /\ p_joinable p' = [] /\ p_next p' = p_next p /\ p_stat p' = p_stat p /\
    p_reported p' = p_reported p ++ l /\ (forall id, In id l -> In id (p_joined p')) /\ (forall id, In id (p_joined p) -> In id (p_joined p')) /\
    (forall id, held p' id -> held p id).
Proof.
  induction l as [|id l IH]; intros p I.
  - cbn [join_stack]. eexists. split; [reflexivity|]. cbn in *. split; [exact I|]. rewrite app_nil_r. repeat (split; [try reflexivity; tauto|]). auto.
  - cbn [join_stack]. cbn [rev] in I. pose proof I as [H1 H2 H3 H4 H5 H6 H7 H8]. cbn [p_next p_joinable p_threads p_stat p_joined p_reported] in *.
    assert (Hd : alookup Nat.eqb id (p_stat p) = Some TDone) by (apply (H7 id); rewrite !in_app_iff; cbn; tauto).
    assert (Hmove : forall th jo, pool_inv (mkPool (p_next p) (rev l ++ [id]) th (p_stat p) jo (p_reported p)) -> pool_inv (mkPool (p_next p) (rev l) th (p_stat p) jo (p_reported p ++ [id]))).
    { clear. intros th jo [H1 H2 H3 H4 H5 H6 H7 H8]. cbn [p_next p_joinable p_threads p_stat p_joined p_reported] in *.
      constructor; cbn [p_next p_joinable p_threads p_stat p_joined p_reported]; try assumption.
      - rewrite app_assoc. rewrite <- app_assoc in H4. cbn [List.app] in H4. apply NoDup_Add with (a := id) (l := rev l ++ p_reported p) in H4; [|apply Add_app].
        replace ((rev l ++ p_reported p) ++ [id]) with ((rev l ++ p_reported p) ++ id :: []) by reflexivity. apply NoDup_Add with (a := id) (l := (rev l ++ p_reported p) ++ []); [apply Add_app|]. rewrite app_nil_r. exact H4.
      - intros x. rewrite <- (H7 x : _ <-> _), !in_app_iff. cbn. tauto. }
    destruct (alookup Nat.eqb id (p_threads p)) as [u|] eqn:Eh.
    + rewrite Hd. assert (Hh : held p id) by (apply (alookup_In Nat.eqb nat_eqb_eq) in Eh; apply in_map_iff; exists (id, u); auto).
      destruct (IH (mkPool (p_next p) (p_joinable p) (aremove Nat.eqb id (p_threads p)) (p_stat p) (p_joined p ++ [id]) (p_reported p ++ [id]))) as (p' & E & I' & J1 & J2 & J3 & J4 & J5 & J6 & J7).
      { cbn [p_next p_joinable p_threads p_stat p_joined p_reported]. apply Hmove. apply (join_one_inv _ id) in I; [exact I|exact Hh|exact Hd]. }
      cbn [p_next p_joinable p_threads p_stat p_joined p_reported] in *. exists p'. rewrite <- app_assoc in J4. repeat (split; [assumption|]). split.
      * intros x [<-|Hx]; [apply J6, in_or_app; right; left; reflexivity|apply J5, Hx].
      * split; [intros x Hx; apply J6, in_or_app; tauto|]. intros x Hx. apply J7 in Hx. unfold held in *. cbn in Hx. apply (aremove_keys_incl Nat.eqb) in Hx. exact Hx.
    + destruct (IH (mkPool (p_next p) (p_joinable p) (p_threads p) (p_stat p) (p_joined p) (p_reported p ++ [id]))) as (p' & E & I' & J1 & J2 & J3 & J4 & J5 & J6 & J7).
      { cbn [p_next p_joinable p_threads p_stat p_joined p_reported]. apply Hmove, I. }
      cbn [p_next p_joinable p_threads p_stat p_joined p_reported] in *. exists p'. rewrite <- app_assoc in J4. repeat (split; [assumption|]). split; [|split; assumption].
      intros x [<-|Hx]; [|apply J5, Hx]. apply J6. assert (Hlt : id < p_next p) by (apply H1; unfold stat; cbn; rewrite Hd; discriminate).
      apply H5 in Hlt as [Hh|Hj]; [|exact Hj]. unfold held in Hh. cbn in Hh. apply (alookup_None Nat.eqb nat_eqb_eq) in Eh. contradiction.
Qed.
Lemma join_ready_inv p : pool_inv p -> exists p', join_ready p = Some p' /\ pool_inv p' /\ p_joinable p' = [] /\ p_next p' = p_next p /\ p_stat p' = p_stat p /\
    p_reported p' = p_reported p ++ rev (p_joinable p) /\ (forall id, In id (p_joinable p) -> In id (p_joined p')) /\ (forall id, In id (p_joined p) -> In id (p_joined p')) /\
    (forall id, held p' id -> held p id).
Proof.
  intros I. unfold join_ready. destruct (join_stack_inv (rev (p_joinable p)) p) as (p' & E & J).
  - rewrite rev_involutive. destruct p; exact I.
  - exists p'. split; [exact E|]. destruct J as (J0 & J1 & J2 & J3 & J4 & J5 & J6). split; [assumption|]. split; [assumption|]. split; [assumption|]. split; [assumption|]. split; [assumption|].
    split; [intros id Hid; apply J5; rewrite <- in_rev; exact Hid|assumption].
Qed.
Lemma pool_run_inv ms : exists p, pool_run ms = Some p /\ pool_inv p.
Proof.
  unfold pool_run. assert (G : forall ms p, pool_inv p -> exists p', fold_left pool_step ms (Some p) = Some p' /\ pool_inv p').
  { clear. induction ms as [|m ms IH]; intros p I; cbn [fold_left]; [eauto|]. destruct m; cbn [pool_step].
    - apply IH, spawn_inv, I.
    - apply IH, finish_inv, I.
    - apply IH, crash_inv, I.
    - destruct (join_ready_inv p I) as (p' & -> & I' & _). apply IH, I'. }
  apply G, pool_new_inv.
Qed.

(** Ids are fresh and counted up; a completed thread is reported, at most once, and
    only completed threads are; after a join_ready every completed thread has been
    reported and joined exactly once. *)
Theorem C54_joined_once : forall ms, exists p, pool_run ms = Some p /\
  (forall id, stat p id <> None <-> id < p_next p) /\ NoDup (p_joined p) /\ NoDup (p_reported p) /\
  (forall id, In id (p_joined p) -> stat p id = Some TDone) /\ (forall id, In id (p_reported p) -> stat p id = Some TDone) /\
  exists p', join_ready p = Some p' /\ NoDup (p_joined p') /\ NoDup (p_reported p') /\
    forall id, stat p id = Some TDone <-> In id (p_reported p') /\ In id (p_joined p').
Proof.
  intros ms. destruct (pool_run_inv ms) as (p & E & I). exists p. split; [exact E|]. pose proof I as [H1 H2 H3 H4 H5 H6 H7 H8].
  split; [exact H1|]. split; [exact H3|]. split; [clear -H4; induction (p_joinable p) as [|x l IH]; [exact H4|inversion H4; auto]|]. split; [exact H8|].
  split; [intros id Hid; apply H7, in_or_app; tauto|].
  destruct (join_ready_inv p I) as (p' & Ej & I' & J1 & J2 & J3 & J4 & J5 & J6 & J7). exists p'. split; [exact Ej|]. pose proof I' as [K1 K2 K3 K4 K5 K6 K7 K8].
  split; [exact K3|]. rewrite J1 in K4. split; [exact K4|]. intros id. rewrite J1 in K7. cbn [List.app] in K7. rewrite K7. unfold stat. rewrite J3. fold (stat p id). split; [|tauto].
  intros Hd. split; [exact Hd|]. assert (Hlt : id < p_next p') by (apply K1; unfold stat; rewrite J3; unfold stat in Hd; rewrite Hd; discriminate).
  apply K5 in Hlt as [Hh|Hj]; [|exact Hj]. apply J7 in Hh. apply H7 in Hd. apply in_app_or in Hd as [Hd|Hd]; [apply J5, Hd|].
  (* reported earlier, hence joined earlier *)
  apply J6. clear -E Hd Hh. revert Hd Hh. assert (G : forall ms p0 p, (forall x, In x (p_reported p0) -> In x (p_joined p0)) -> pool_inv p0 -> fold_left pool_step ms (Some p0) = Some p -> forall x, In x (p_reported p) -> In x (p_joined p)).
  { clear. induction ms as [|m ms IH]; intros p0 p H I; cbn [fold_left]; [intros [= <-]; exact H|]. destruct m; cbn [pool_step].
    - apply IH; [exact H|apply spawn_inv, I].
    - apply IH; [|apply finish_inv, I]. unfold pool_finish. destruct (alookup Nat.eqb id (p_stat p0)) as [[]|]; exact H.
    - apply IH; [|apply crash_inv, I]. unfold pool_crash. destruct (alookup Nat.eqb id (p_stat p0)) as [[]|]; exact H.
    - destruct (join_ready_inv p0 I) as (p' & -> & I' & J1 & J2 & J3 & J4 & J5 & J6 & J7). apply IH; [|exact I']. rewrite J4. intros x Hx. apply in_app_or in Hx as [Hx|Hx]; [apply J6, H, Hx|apply J5]. apply in_rev. exact Hx. }
  intros Hd _. apply (G ms pool_new p); [intros x []|apply pool_new_inv|exact E|exact Hd].
Qed.

Lemma drain_spec ends : forall hs p, pool_inv p -> NoDup hs -> (forall id, In id hs <-> held p id) ->
  (exists p', drain ends hs p = Some p' /\ pool_inv p' /\ p_threads p' = [] /\ p_next p' = p_next p /\
     forall id, In id hs -> stat p id = Some TDone \/ (stat p id = Some TRunning /\ ends id = true)) \/
  (drain ends hs p = None /\ exists id, In id hs /\ (stat p id = Some TCrashed \/ (stat p id = Some TRunning /\ ends id = false))).
Proof.
  induction hs as [|id hs IH]; intros p I Hn Hh; cbn [drain].
  - left. exists p. split; [reflexivity|]. split; [exact I|]. split; [|split; [reflexivity|intros id []]]. destruct (p_threads p) as [|[x u] l] eqn:E; [reflexivity|]. exfalso. apply (Hh x). unfold held. rewrite E. left. reflexivity.
  - inversion Hn as [|? ? N1 N2]; subst.
    assert (Hid : held p id) by (apply Hh; left; reflexivity).
    assert (Hst : stat p id <> None) by (apply (pi_stat p I), (held_lt p id I Hid)).
    assert (Go : forall p1, pool_inv p1 -> p_threads p1 = p_threads p -> p_next p1 = p_next p -> (forall x, x <> id -> stat p1 x = stat p x) -> stat p1 id = Some TDone ->
      (stat p id = Some TDone \/ (stat p id = Some TRunning /\ ends id = true)) ->
      (exists p', drain ends hs (mkPool (p_next p1) (p_joinable p1) (aremove Nat.eqb id (p_threads p1)) (p_stat p1) (p_joined p1 ++ [id]) (p_reported p1)) = Some p' /\ pool_inv p' /\ p_threads p' = [] /\ p_next p' = p_next p /\
         forall x, In x (id :: hs) -> stat p x = Some TDone \/ (stat p x = Some TRunning /\ ends x = true)) \/
      (drain ends hs (mkPool (p_next p1) (p_joinable p1) (aremove Nat.eqb id (p_threads p1)) (p_stat p1) (p_joined p1 ++ [id]) (p_reported p1)) = None /\
         exists x, In x (id :: hs) /\ (stat p x = Some TCrashed \/ (stat p x = Some TRunning /\ ends x = false)))).
    { intros p1 I1 Et En Es Ed Hor. assert (Hid1 : held p1 id) by (unfold held; rewrite Et; exact Hid).
      pose proof (join_one_inv p1 id I1 Hid1 Ed) as I2.
      destruct (IH _ I2 N2) as [(p' & E & I' & Hp & Hn' & Hr)|(E & x & Hx & Hr)].
      - intros x. unfold held at 1. cbn [p_threads]. rewrite Et. split.
        + intros Hx. assert (Hhx : held p x) by (apply Hh; right; exact Hx). unfold held in Hhx.
          destruct (alookup Nat.eqb x (aremove Nat.eqb id (p_threads p))) as [u|] eqn:E; [apply (alookup_In Nat.eqb nat_eqb_eq) in E; apply in_map_iff; exists (x, u); auto|].
          rewrite (alookup_aremove_ne Nat.eqb nat_eqb_eq) in E by congruence. apply (alookup_None Nat.eqb nat_eqb_eq) in E. contradiction.
        + intros Hx. assert (Hne : x <> id). { intros ->. pose proof (alookup_aremove_eq Nat.eqb nat_eqb_eq id (p_threads p) (pi_held_nd p I)) as E. apply (alookup_None Nat.eqb nat_eqb_eq) in E. contradiction. }
          apply (aremove_keys_incl Nat.eqb) in Hx. apply Hh in Hx as [Hx|Hx]; [congruence|exact Hx].
      - left. exists p'. split; [exact E|]. split; [exact I'|]. split; [exact Hp|]. split; [cbn in Hn'; congruence|]. intros x [<-|Hx]; [exact Hor|].
        specialize (Hr x Hx). unfold stat in Hr, Es. cbn [p_stat] in Hr. fold (stat p1 x) in Hr. unfold stat in Hr. rewrite Es in Hr by congruence. exact Hr.
      - right. split; [exact E|]. exists x. split; [right; exact Hx|]. unfold stat in Hr, Es. cbn [p_stat] in Hr. rewrite Es in Hr by congruence. exact Hr. }
    destruct (ends id) eqn:Ee.
    + unfold pool_finish. fold (stat p id). destruct (stat p id) as [[]|] eqn:Es; [| | |congruence].
      * cbn [p_stat]. rewrite (alookup_ainsert_eq Nat.eqb nat_eqb_eq).
        assert (Ef : pool_finish id p = mkPool (p_next p) (p_joinable p ++ [id]) (p_threads p) (ainsert Nat.eqb id TDone (p_stat p)) (p_joined p) (p_reported p)) by (unfold pool_finish; fold (stat p id); rewrite Es; reflexivity).
        apply Go.
        -- rewrite <- Ef. apply finish_inv, I.
        -- reflexivity.
        -- reflexivity.
        -- intros x Hx. unfold stat. cbn [p_stat]. apply alookup_ainsert_ne; [apply nat_eqb_eq|congruence].
        -- unfold stat. cbn [p_stat]. apply alookup_ainsert_eq, nat_eqb_eq.
        -- right. auto.
      * fold (stat p id). rewrite Es. apply Go; try reflexivity; auto.
      * fold (stat p id). rewrite Es. right. split; [reflexivity|]. exists id. split; [left; reflexivity|]. left. exact Es.
    + unfold pool_crash. fold (stat p id). destruct (stat p id) as [[]|] eqn:Es; [| | |congruence].
      * cbn [p_stat]. rewrite (alookup_ainsert_eq Nat.eqb nat_eqb_eq). right. split; [reflexivity|]. exists id. split; [left; reflexivity|]. right. auto.
      * fold (stat p id). rewrite Es. apply Go; try reflexivity; auto.
      * fold (stat p id). rewrite Es. right. split; [reflexivity|]. exists id. split; [left; reflexivity|]. left. exact Es.
Qed.
(** Shutdown joins every thread that was ever spawned, exactly once, if no thread
    panicked.  Missing: threads that panicked. *)
Theorem C54_shutdown_joins_all_partial : forall ms ends p, pool_run ms = Some p ->
  (forall id, stat p id <> Some TCrashed) -> (forall id, ends id = true) ->
  exists p', pool_shutdown ends p = Some p' /\ p_threads p' = [] /\ NoDup (p_joined p') /\ NoDup (p_reported p') /\
    (forall id, id < p_next p <-> In id (p_joined p')) /\ (forall id, id < p_next p <-> In id (p_reported p')).
Proof.
  intros ms ends p E Hc He. destruct (pool_run_inv ms) as (p0 & E0 & I). rewrite E in E0. injection E0 as <-.
  unfold pool_shutdown. destruct (drain_spec ends (map fst (p_threads p)) p I (pi_held_nd p I) (fun id => iff_refl _)) as [(p' & -> & I' & Hp & Hn & Hr)|(_ & id & Hid & [Hr|[_ Hr]])].
  - destruct (join_ready_inv p' I') as (p2 & E2 & I2 & J1 & J2 & J3 & J4 & J5 & J6 & J7). exists p2. split; [exact E2|]. pose proof I2 as [K1 K2 K3 K4 K5 K6 K7 K8].
    assert (Hnone : forall id, ~ held p2 id) by (intros id Hid; apply J7 in Hid; unfold held in Hid; rewrite Hp in Hid; exact Hid).
    split; [destruct (p_threads p2) as [|[x u] l] eqn:Ex; [reflexivity|]; exfalso; apply (Hnone x); unfold held; rewrite Ex; left; reflexivity|].
    rewrite J1 in K4, K7. cbn [List.app] in K4, K7. split; [exact K3|]. split; [exact K4|].
    assert (Hj : forall id, id < p_next p <-> In id (p_joined p2)) by (intros id; rewrite <- Hn, <- J2, K5; specialize (Hnone id); tauto).
    split; [exact Hj|]. intros id. rewrite Hj. split; [intros Hid; apply K7, K8, Hid|]. intros Hid. apply K7 in Hid. apply Hj. rewrite <- Hn, <- J2. apply K1. rewrite Hid. discriminate.
  - exfalso. apply (Hc id Hr).
  - rewrite He in Hr. discriminate.
Qed.
(** A thread that panicked is never joined by join_ready: its handle stays in the
    pool. *)
Theorem C54_crashed_kept : forall ms p id, pool_run ms = Some p -> stat p id = Some TCrashed -> held p id /\ ~ In id (p_joined p) /\ ~ In id (p_reported p).
Proof.
  intros ms p id E Hs. destruct (pool_run_inv ms) as (p0 & E0 & I). rewrite E in E0. injection E0 as <-. pose proof I as [H1 H2 H3 H4 H5 H6 H7 H8].
  assert (N : ~ In id (p_joined p)) by (intros Hin; apply H8 in Hin; congruence). split; [|split; [exact N|]].
  - assert (Hlt : id < p_next p) by (apply H1; rewrite Hs; discriminate). apply H5 in Hlt. tauto.
  - intros Hin. assert (Hd : stat p id = Some TDone) by (apply H7, in_or_app; tauto). congruence.
Qed.
Example C54_ex : 
  option_map (fun p => (p_joined p, p_reported p, map fst (p_threads p))) (pool_run [MSpawn; MSpawn; MFinish 1; MSpawn; MFinish 0; MJoinReady; MJoinReady; MSpawn]) = Some ([0; 1], [0; 1], [2; 3]) /\
  option_map (fun p => (p_joined p, p_reported p)) (match pool_run [MSpawn; MSpawn; MFinish 1; MSpawn; MFinish 0; MJoinReady; MSpawn] with Some p => pool_shutdown (fun _ => true) p | None => None end) = Some ([0; 1; 2; 3], [0; 1; 3; 2]).
Proof. split; reflexivity. Qed.
Print Assumptions C54_joined_once.
Print Assumptions C54_shutdown_joins_all_partial.
Print Assumptions C54_crashed_kept.
(** Exactly when shutdown gets through: no thread ever panicked and every thread still running ends without a panic. *)
Theorem C54_shutdown_exactly : forall ms ends p, pool_run ms = Some p ->
  (pool_shutdown ends p <> None <-> forall id, stat p id <> Some TCrashed /\ (stat p id = Some TRunning -> ends id = true)).
Proof.
  intros ms ends p E. destruct (pool_run_inv ms) as (p0 & E0 & I). rewrite E in E0. injection E0 as <-.
  assert (Hh : forall id, stat p id <> None -> stat p id <> Some TDone -> held p id).
  { intros id H1 H2. pose proof I as [K1 _ _ _ K5 _ _ K8]. apply K1, K5 in H1 as [H1|H1]; [exact H1|]. destruct (H2 (K8 id H1)). }
  unfold pool_shutdown. destruct (drain_spec ends (map fst (p_threads p)) p I (pi_held_nd p I) (fun id => iff_refl _)) as [(p' & -> & I' & _ & _ & Hr)|(-> & id & _ & Hb)].
  - split; [|intros _; destruct (join_ready_inv p' I') as (p2 & -> & _); discriminate].
    intros _ id. split; intros Hs; destruct (Hr id (Hh id ltac:(congruence) ltac:(congruence))) as [Hr'|[Hr' He]]; congruence.
  - split; [congruence|]. intros H. exfalso. destruct (H id) as [H1 H2]. destruct Hb as [Hb|[Hb He]]; [congruence|]. rewrite (H2 Hb) in He. discriminate.
Qed.
(** one panicked thread: shutdown panics whatever the others do, and the one still running is not joined *)
Theorem C54_refuted : exists p, pool_run [MSpawn; MSpawn; MCrash 0; MJoinReady] = Some p /\ stat p 1 = Some TRunning /\ ~ In 1 (p_joined p) /\
  forall ends, pool_shutdown ends p = None.
Proof.
  destruct (pool_run [MSpawn; MSpawn; MCrash 0; MJoinReady]) as [p|] eqn:E; [|discriminate]. exists p. split; [reflexivity|].
  pose proof (C54_shutdown_exactly [MSpawn; MSpawn; MCrash 0; MJoinReady]) as X. split; [injection E as <-; reflexivity|]. split; [injection E as <-; intros []|].
  intros ends. specialize (X ends p E). destruct (pool_shutdown ends p); [|reflexivity]. exfalso. apply X with (id := 0); [discriminate|]. injection E as <-. reflexivity.
Qed.
Print Assumptions C54_shutdown_exactly.
Print Assumptions C54_refuted.

(** ** C74: "Stream handlers are allowed to crash without compromising Cernan's
    ability to gracefully shutdown" (src/source/tcp.rs:193-194) *)
(** False: if any handler ever panicked, shutting the pool down panics. *)
Theorem C74_crashed_handler_refuted : forall ms ends p id, pool_run ms = Some p -> stat p id = Some TCrashed -> pool_shutdown ends p = None.
Proof.
  intros ms ends p id E Hs. pose proof (C54_crashed_kept ms p id E Hs) as (Hh & _). destruct (pool_run_inv ms) as (p0 & E0 & I). rewrite E in E0. injection E0 as <-.
  unfold pool_shutdown. destruct (drain_spec ends (map fst (p_threads p)) p I (pi_held_nd p I) (fun id => iff_refl _)) as [(p' & _ & _ & _ & _ & Hr)|(-> & _)]; [|reflexivity].
  exfalso. destruct (Hr id Hh) as [Hr'|[Hr' _]]; congruence.
Qed.
Example C74_ex : exists p, pool_run [MSpawn; MCrash 0; MJoinReady] = Some p /\ stat p 0 = Some TCrashed /\ pool_shutdown (fun _ => true) p = None.
Proof. eexists. split; [reflexivity|]. split; reflexivity. Qed.
Print Assumptions C74_crashed_handler_refuted.

(** ** C59 *)
Lemma insert_all_spec {E} : forall (l : list E) s, insert_all s l = (s ++ l, seq (List.length s) (List.length l)).
Proof.
  induction l as [|e l IH]; intros s; cbn [insert_all]; [rewrite app_nil_r; reflexivity|]. cbn [slab_insert]. rewrite IH, app_length, <- app_assoc. cbn. rewrite Nat.add_1_r. reflexivity.
Qed.
(** Tokens are distinct, looking one up gives its listener, and the token of the
    stream events is none of them. *)
Theorem C59_tokens : forall E (l : list E),
  let '(s, tokens) := insert_all [] l in
  NoDup tokens /\ List.length tokens = List.length l /\ (forall i, i < List.length l -> slab_get s (nth i tokens 0) = nth_error l i) /\ ~ In (slab_count s) tokens.
Proof.
  intros E l. rewrite insert_all_spec. cbn [List.app List.length]. split; [apply seq_NoDup|]. split; [apply seq_length|]. split.
  - intros i Hi. rewrite seq_nth by assumption. reflexivity.
  - unfold slab_count. rewrite in_seq. lia.
Qed.
(** The last part of the claim is false: the 2049th listener gets the system token;
    with 2048 listeners the stream events get it. *)
Theorem C59_system_token_refuted :
  (exists l : list unit, In system_token (map N.of_nat (snd (insert_all [] l)))) /\
  (exists l : list unit, N.of_nat (slab_count (fst (insert_all [] l))) = system_token).
Proof.
  split.
  - exists (repeat tt (N.to_nat 2049)). rewrite insert_all_spec. cbn [snd]. apply in_map_iff. exists (N.to_nat 2048). split; [apply N2Nat.id|]. apply in_seq. cbn [List.length]. rewrite repeat_length. lia.
  - exists (repeat tt (N.to_nat 2048)). rewrite insert_all_spec. cbn [fst List.app]. unfold slab_count. rewrite repeat_length. apply N2Nat.id.
Qed.
(** It holds with fewer listeners. *)
Theorem C59_system_token_partial : forall E (l : list E), (N.of_nat (List.length l) < 2048)%N ->
  let '(s, tokens) := insert_all [] l in ~ In system_token (map N.of_nat tokens) /\ N.of_nat (slab_count s) <> system_token.
Proof.
  intros E l H. rewrite insert_all_spec. cbn [List.app List.length]. unfold system_token, slab_count. split; [|lia].
  intros Hin. apply in_map_iff in Hin as (x & Hx & Hin). apply in_seq in Hin. lia.
Qed.
Example C59_ex : insert_all [] [true; false; true] = ([true; false; true], [0; 1; 2]) /\ slab_get [true; false; true] 1 = Some false.
Proof. split; reflexivity. Qed.
Print Assumptions C59_tokens.
Print Assumptions C59_system_token_refuted.
Print Assumptions C59_system_token_partial.
