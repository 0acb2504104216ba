(** * Proofs about the accept loop *)
From Verif Require Import Base BaseFacts TelemetryModel FlowModel RuntimeModel RuntimeProps AcceptModel AcceptSpec.
Open Scope list_scope. Open Scope nat_scope.

Lemma update_length {A} (f : A -> A) : forall l i, List.length (update i f l) = List.length l.
Proof. induction l as [|x l IH]; intros [|i]; cbn; auto. Qed.
Lemma update_eq {A} (f : A -> A) : forall l i, nth_error (update i f l) i = option_map f (nth_error l i).
Proof. induction l as [|x l IH]; intros [|i]; cbn; auto. Qed.
Lemma update_ne {A} (f : A -> A) : forall l i j, i <> j -> nth_error (update i f l) j = nth_error l j.
Proof. induction l as [|x l IH]; intros [|i] [|j] H; cbn; try congruence. apply IH. congruence. Qed.

Lemma take_event_socks s x : List.length (ac_socks (take_event s x)) = List.length (ac_socks s).
Proof. destruct x; cbn; [reflexivity..|apply update_length]. Qed.
Lemma take_events : forall xs s, let s' := fold_left take_event xs s in
  List.length (ac_socks s') = List.length (ac_socks s) /\ ac_pool s' = ac_pool s /\ ac_phase s' = ac_phase s /\ ac_taken s' = ac_taken s /\
  ac_handlers s' = ac_handlers s /\ ac_shutdowns s' = ac_shutdowns s /\
  (forall i k, nth_error (ac_socks s) i = Some k -> exists k', nth_error (ac_socks s') i = Some k' /\ so_queue k' = so_queue k /\ so_reg k' = so_reg k /\
     (so_edge k' = so_edge k \/ In (FromListener i) xs)) /\
  (ac_pool_edge s' = ac_pool_edge s \/ In FromPool xs) /\ (ac_signal s' = ac_signal s \/ In FromSystem xs).
Proof.
  induction xs as [|x xs IH]; intros s; cbn [fold_left].
  - cbn. repeat (split; [reflexivity|]). split; [|auto]. intros i k H. exists k. auto.
  - destruct (IH (take_event s x)) as (H1 & H2 & H3 & H4 & H5 & H6 & H7 & H8 & H9). cbv zeta. rewrite take_event_socks in H1.
    split; [exact H1|]. split; [rewrite H2; destruct x; reflexivity|]. split; [rewrite H3; destruct x; reflexivity|]. split; [rewrite H4; destruct x; reflexivity|].
    split; [rewrite H5; destruct x; reflexivity|]. split; [rewrite H6; destruct x; reflexivity|]. split; [|split].
    + intros i k H. assert (G : exists k1, nth_error (ac_socks (take_event s x)) i = Some k1 /\ so_queue k1 = so_queue k /\ so_reg k1 = so_reg k /\ (so_edge k1 = so_edge k \/ x = FromListener i)).
      { destruct x as [| |j]; [exists k; auto..|]. cbn [take_event ac_socks]. destruct (Nat.eq_dec j i) as [->|Hne].
        - rewrite update_eq, H. cbn. eexists. split; [reflexivity|]. auto.
        - rewrite update_ne by exact Hne. exists k. auto. }
      destruct G as (k1 & G1 & G2 & G3 & G4). destruct (H7 i k1 G1) as (k' & K1 & K2 & K3 & K4). exists k'. split; [exact K1|]. split; [congruence|]. split; [congruence|].
      destruct K4 as [K4|K4]; [|right; right; exact K4]. destruct G4 as [G4|G4]; [left; congruence|right; left; exact G4].
    + destruct H8 as [H8|H8]; [|right; right; exact H8]. destruct x; [left; exact H8|right; left; reflexivity|left; exact H8].
    + destruct H9 as [H9|H9]; [|right; right; exact H9]. destruct x; [right; left; reflexivity|left; exact H9|left; exact H9].
Qed.

Lemma take_all_fold : forall xs s s', take_all xs s = Some s' -> s' = fold_left take_event xs s.
Proof. induction xs as [|x xs IH]; intros s s' E; cbn [take_all fold_left] in *; [congruence|]. destruct (waiting s x); [apply IH, E|discriminate]. Qed.

Lemma run_inv (P : acceptor -> Prop) : (forall s m s', P s -> acc_step s m = Some s' -> P s') ->
  forall ms s s', P s -> acc_run ms s = Some s' -> P s'.
Proof.
  intros H. induction ms as [|m ms IH]; intros s s' I E; cbn [acc_run] in E; [injection E as <-; exact I|].
  destruct (acc_step s m) as [s1|] eqn:E1; [|discriminate]. apply (IH s1 s'); [apply (H s m s1 I E1)|exact E].
Qed.
Lemma run_app : forall a b s, acc_run (a ++ b) s = match acc_run a s with Some s' => acc_run b s' | None => None end.
Proof. induction a as [|m a IH]; intros b s; cbn [acc_run List.app]; [reflexivity|]. destruct (acc_step s m); [apply IH|reflexivity]. Qed.

(** ** The queues *)
Lemma taken_from_app i a b : taken_from i (a ++ b) = taken_from i a ++ taken_from i b.
Proof. apply flat_map_app. Qed.
Lemma accepted_app a b : accepted (a ++ b) = accepted a ++ accepted b.
Proof. apply flat_map_app. Qed.
Definition history (i : nat) (s : acceptor) : list conn := taken_from i (ac_taken s) ++ queued i s.
Definition new_of (i : nat) (m : move) : list conn := match m with Arrives j c => if j =? i then [c] else [] | _ => [] end.
Lemma on_token_same ends s t rest : let s' := on_token ends s t rest in
  ac_socks s' = ac_socks s /\ ac_taken s' = ac_taken s /\ ac_handlers s' = ac_handlers s /\ ac_pool_edge s' = ac_pool_edge s /\ ac_signal s' = ac_signal s.
Proof.
  unfold on_token. destruct (t =? system_token)%N; [destruct (pool_shutdown ends (ac_pool s)); cbn; auto|].
  destruct (t =? N.of_nat (slab_count (ac_socks s)))%N; [destruct (join_ready (ac_pool s)); cbn; auto|].
  destruct (slab_get (ac_socks s) (N.to_nat t)); cbn; auto.
Qed.
Lemma step_history i s m s' : acc_step s m = Some s' -> i < List.length (ac_socks s) ->
  List.length (ac_socks s') = List.length (ac_socks s) /\ history i s' = history i s ++ new_of i m.
Proof.
  intros E Hi. unfold history, queued. destruct m as [j c|id|id| |xs|ends|a]; cbn [acc_step new_of] in E |- *.
  - destruct (j <? List.length (ac_socks s)) eqn:Hj; [|discriminate]. injection E as <-. cbn [ac_socks ac_taken with_socks]. split; [apply update_length|].
    destruct (Nat.eqb_spec j i) as [->|Hne].
    + rewrite update_eq. destruct (nth_error (ac_socks s) i) as [k|] eqn:Ek; [|apply nth_error_None in Ek; lia]. cbn. apply app_assoc.
    + rewrite update_ne by exact Hne. rewrite app_nil_r. reflexivity.
  - destruct (runs_now (ac_pool s) id); [|discriminate]. injection E as <-. cbn. rewrite app_nil_r. auto.
  - destruct (runs_now (ac_pool s) id); [|discriminate]. injection E as <-. cbn. rewrite app_nil_r. auto.
  - injection E as <-. cbn. rewrite app_nil_r. auto.
  - destruct (ac_phase s); try discriminate. destruct (take_all xs s) as [s2|] eqn:Et; [|discriminate]. apply take_all_fold in Et. subst s2. injection E as <-. cbn [with_phase ac_socks ac_taken].
    destruct (take_events xs s) as (H1 & _ & _ & H4 & _ & _ & H7 & _). split; [exact H1|]. rewrite H4, app_nil_r. f_equal.
    destruct (nth_error (ac_socks s) i) as [k|] eqn:Ek; [|apply nth_error_None in Ek; lia]. destruct (H7 i k Ek) as (k' & -> & Hq & _). exact Hq.
  - rewrite app_nil_r. destruct (ac_phase s) as [|[|t rest]| | |]; try discriminate; injection E as <-; [cbn; auto|].
    destruct (on_token_same ends s t rest) as (H1 & H2 & _). cbv zeta in *. rewrite H1, H2. auto.
  - rewrite app_nil_r. destruct (ac_phase s) as [| |j rest| |]; try discriminate. unfold on_accept in E.
    destruct (nth_error (ac_socks s) j) as [k|] eqn:Ek; [|discriminate].
    assert (T : forall c q b, so_queue k = c :: q ->
       taken_from i (ac_taken s ++ [(j, c, b)]) ++ match nth_error (update j sock_take (ac_socks s)) i with Some k0 => so_queue k0 | None => [] end =
       taken_from i (ac_taken s) ++ match nth_error (ac_socks s) i with Some k0 => so_queue k0 | None => [] end).
    { intros c q b Eq. rewrite taken_from_app. cbn. destruct (Nat.eqb_spec j i) as [->|Hne].
      - rewrite update_eq, Ek. cbn. rewrite Eq. cbn. rewrite <- app_assoc. reflexivity.
      - rewrite update_ne by exact Hne. rewrite app_nil_r. reflexivity. }
    destruct a as [|[]| |].
    + destruct (so_queue k) as [|c q] eqn:Eq; [discriminate|]. injection E as <-. cbn [ac_socks ac_taken]. split; [apply update_length|]. eapply T; reflexivity.
    + destruct (so_queue k) as [|c q] eqn:Eq; [discriminate|]. injection E as <-. cbn [ac_socks ac_taken]. split; [apply update_length|]. eapply T; reflexivity.
    + injection E as <-. auto.
    + destruct (so_queue k); [|discriminate]. injection E as <-. cbn. auto.
    + assert (E' : Some (with_phase (with_socks s (update j sock_dereg (ac_socks s))) (AtEvents rest)) = Some s') by (destruct (so_queue k); exact E).
      clear E. injection E' as <-. cbn [with_phase with_socks ac_socks ac_taken]. split; [apply update_length|]. f_equal.
      destruct (Nat.eq_dec j i) as [->|Hne]; [rewrite update_eq, Ek; reflexivity|rewrite update_ne by exact Hne; reflexivity].
Qed.
Lemma run_history i : forall ms s s', acc_run ms s = Some s' -> i < List.length (ac_socks s) ->
  List.length (ac_socks s') = List.length (ac_socks s) /\ history i s' = history i s ++ flat_map (new_of i) ms.
Proof.
  induction ms as [|m ms IH]; intros s s' E Hi; cbn [acc_run flat_map] in *; [injection E as <-; rewrite app_nil_r; auto|].
  destruct (acc_step s m) as [s1|] eqn:E1; [|discriminate]. destruct (step_history i s m s1 E1 Hi) as (L & H).
  destruct (IH s1 s' E) as (L' & H'); [lia|]. split; [lia|]. rewrite H', H, <- app_assoc. reflexivity.
Qed.
Lemma run_socks : forall ms s s', acc_run ms s = Some s' -> List.length (ac_socks s') = List.length (ac_socks s).
Proof.
  intros ms s s' E. destruct (List.length (ac_socks s)) as [|n] eqn:L.
  - revert s L E. induction ms as [|m ms IH]; intros s L E; cbn [acc_run] in E; [injection E as <-; exact L|]. destruct (acc_step s m) as [s1|] eqn:E1; [|discriminate].
    apply (IH s1); [|exact E]. assert (N : ac_socks s = []) by (destruct (ac_socks s); [reflexivity|discriminate]).
    destruct m as [j c|id|id| |xs|ends|a]; cbn [acc_step] in E1.
    + rewrite N in E1. discriminate.
    + destruct (runs_now (ac_pool s) id); [|discriminate]. injection E1 as <-. exact L.
    + destruct (runs_now (ac_pool s) id); [|discriminate]. injection E1 as <-. exact L.
    + injection E1 as <-. exact L.
    + destruct (ac_phase s); try discriminate. destruct (take_all xs s) as [s2|] eqn:Et; [|discriminate]. apply take_all_fold in Et. subst s2. injection E1 as <-. destruct (take_events xs s) as (H1 & _). cbn [with_phase ac_socks]. congruence.
    + destruct (ac_phase s) as [|[|t rest]| | |]; try discriminate; injection E1 as <-; [exact L|]. destruct (on_token_same ends s t rest) as (H1 & _). cbv zeta in H1. congruence.
    + destruct (ac_phase s) as [| |j rest| |]; try discriminate. unfold on_accept in E1. rewrite N in E1. destruct j; discriminate.
  - destruct (run_history 0 ms s s' E) as (H & _); lia.
Qed.

(** ** The handlers *)
Definition pool_good (p : pool) : Prop := pool_inv p /\ forall id, In id (p_reported p) -> In id (p_joined p).
Lemma finish_good p id : pool_good p -> pool_good (pool_finish id p).
Proof. intros [I H]. split; [apply finish_inv, I|]. unfold pool_finish. destruct (alookup Nat.eqb id (p_stat p)) as [[]|]; exact H. Qed.
Lemma crash_good p id : pool_good p -> pool_good (pool_crash id p).
Proof. intros [I H]. split; [apply crash_inv, I|]. unfold pool_crash. destruct (alookup Nat.eqb id (p_stat p)) as [[]|]; exact H. Qed.
Lemma join_good p : pool_good p -> exists p', join_ready p = Some p' /\ pool_good p' /\ p_joinable p' = [] /\ p_next p' = p_next p /\ p_stat p' = p_stat p.
Proof.
  intros [I H]. destruct (join_ready_inv p I) as (p' & E & I' & J1 & J2 & J3 & J4 & J5 & J6 & J7). exists p'. split; [exact E|]. split; [|auto]. split; [exact I'|].
  intros x Hx. rewrite J4 in Hx. apply in_app_or in Hx as [Hx|Hx]; [apply J6, H, Hx|apply J5, in_rev, Hx].
Qed.
Lemma shutdown_good ends p : pool_good p ->
  (exists p', pool_shutdown ends p = Some p' /\ pool_good p' /\ p_joinable p' = [] /\ p_next p' = p_next p /\ (forall id, id < p_next p -> In id (p_joined p') /\ stat p' id = Some TDone) /\
     forall id, stat p id <> Some TCrashed) \/
  (pool_shutdown ends p = None /\ exists id, stat p id = Some TCrashed \/ (stat p id = Some TRunning /\ ends id = false)).
Proof.
  intros [I H]. unfold pool_shutdown.
  assert (R : forall hs q, (forall x, In x (p_reported q) -> In x (p_joined q)) -> forall q', drain ends hs q = Some q' -> forall x, In x (p_reported q') -> In x (p_joined q')).
  { clear. induction hs as [|id hs IH]; intros q Hq q' E; cbn [drain] in E; [injection E as <-; exact Hq|].
    set (q1 := if ends id then pool_finish id q else pool_crash id q) in *.
    assert (H1 : forall x, In x (p_reported q1) -> In x (p_joined q1)).
    { unfold q1. destruct (ends id); [unfold pool_finish|unfold pool_crash]; destruct (alookup Nat.eqb id (p_stat q)) as [[]|]; exact Hq. }
    assert (H2 : drain ends hs (mkPool (p_next q1) (p_joinable q1) (aremove Nat.eqb id (p_threads q1)) (p_stat q1) (p_joined q1 ++ [id]) (p_reported q1)) = Some q')
      by (destruct (alookup Nat.eqb id (p_stat q1)) as [[]|]; try exact E; discriminate).
    refine (IH _ _ q' H2). cbn. intros x Hx. apply in_or_app. auto. }
  destruct (drain_spec ends (map fst (p_threads p)) p I (pi_held_nd p I) (fun id => iff_refl _)) as [(p1 & E & I1 & Hp & Hn & Hr)|(-> & id & Hid & Hr)].
  - left. rewrite E. destruct (join_good p1) as (p' & E' & [G1 G2] & J1 & J2 & J3); [split; [exact I1|eapply R; eauto]|]. exists p'. split; [exact E'|]. split; [split; assumption|]. split; [exact J1|].
    split; [congruence|]. split.
    + intros id Hlt. rewrite <- Hn, <- J2 in Hlt. apply (pi_split p' G1) in Hlt as [Hh|Hj]; [|split; [exact Hj|apply (pi_joined_done p' G1), Hj]].
      exfalso. destruct (join_ready_inv p1 I1) as (p2 & E2 & _ & _ & _ & _ & _ & _ & _ & J). rewrite E' in E2. injection E2 as <-. apply J in Hh. unfold held in Hh. rewrite Hp in Hh. exact Hh.
    + intros id Hc. assert (Hlt : id < p_next p) by (apply (pi_stat p I); rewrite Hc; discriminate). apply (pi_split p I) in Hlt as [Hh|Hj].
      * destruct (Hr id Hh) as [Hr'|[Hr' _]]; congruence.
      * apply (pi_joined_done p I) in Hj. congruence.
  - right. split; [reflexivity|]. exists id. exact Hr.
Qed.
Lemma spawn_good p : pool_good p -> pool_good (pool_spawn p).
Proof. intros [I H]. split; [apply spawn_inv, I|exact H]. Qed.

(** what holds of the pool in every state *)
Record handlers_inv (s : acceptor) : Prop := mkHI {
  hi_pool : pool_good (ac_pool s);
  hi_next : p_next (ac_pool s) = List.length (accepted (ac_taken s));
  hi_log : ac_handlers s = combine (seq 0 (p_next (ac_pool s))) (accepted (ac_taken s));
  hi_end : ac_phase s = AtEnd -> p_joinable (ac_pool s) = [] /\ forall id, id < p_next (ac_pool s) -> In id (p_joined (ac_pool s)) /\ stat (ac_pool s) id = Some TDone;
  hi_sent : ac_shutdowns s = match ac_phase s with AtEnd => 1 | _ => 0 end;
}.
Lemma start_handlers queues : handlers_inv (acc_start queues).
Proof. constructor; cbn; try reflexivity; [|discriminate]. split; [apply pool_new_inv|]. intros id []. Qed.
Lemma finish_next p id : p_next (pool_finish id p) = p_next p.
Proof. unfold pool_finish. destruct (alookup Nat.eqb id (p_stat p)) as [[]|]; reflexivity. Qed.
Lemma crash_next p id : p_next (pool_crash id p) = p_next p.
Proof. unfold pool_crash. destruct (alookup Nat.eqb id (p_stat p)) as [[]|]; reflexivity. Qed.
Lemma combine_app {A B} : forall (a a' : list A) (b b' : list B), List.length a = List.length b -> combine (a ++ a') (b ++ b') = combine a b ++ combine a' b'.
Proof. induction a as [|x a IH]; intros a' [|y b] b' H; cbn in *; try discriminate; [reflexivity|]. f_equal. apply IH. lia. Qed.
Lemma runs_now_true p id : runs_now p id = true -> stat p id = Some TRunning.
Proof. unfold runs_now, stat. destruct (alookup Nat.eqb id (p_stat p)) as [[]|]; congruence. Qed.
Lemma not_at_end s id : handlers_inv s -> runs_now (ac_pool s) id = true -> ac_phase s <> AtEnd.
Proof.
  intros [[I _] _ _ He _] R E. apply runs_now_true in R. destruct (He E) as (_ & Hd). assert (Hlt : id < p_next (ac_pool s)) by (apply (pi_stat _ I); rewrite R; discriminate).
  destruct (Hd id Hlt) as (_ & Hs). congruence.
Qed.
Lemma step_handlers s m s' : handlers_inv s -> acc_step s m = Some s' -> handlers_inv s'.
Proof.
  intros I E. pose proof I as [H1 H2 H3 H4 H5]. destruct m as [j c|id|id| |xs|ends|a]; cbn [acc_step] in E.
  - destruct (j <? List.length (ac_socks s)); [|discriminate]. injection E as <-. constructor; cbn; assumption.
  - destruct (runs_now (ac_pool s) id) eqn:R; [|discriminate]. injection E as <-. pose proof (not_at_end s id I R) as Ne. constructor; cbn; rewrite ?finish_next; try assumption; [apply finish_good, H1|]. congruence.
  - destruct (runs_now (ac_pool s) id) eqn:R; [|discriminate]. injection E as <-. pose proof (not_at_end s id I R) as Ne. constructor; cbn; rewrite ?crash_next; try assumption; [apply crash_good, H1|]. congruence.
  - injection E as <-. constructor; cbn; assumption.
  - destruct (ac_phase s) eqn:Ep; try discriminate. destruct (take_all xs s) as [s2|] eqn:Et; [|discriminate]. apply take_all_fold in Et. subst s2. injection E as <-. destruct (take_events xs s) as (_ & T2 & _ & T4 & T5 & T6 & _).
    constructor; cbn [with_phase ac_pool ac_taken ac_handlers ac_phase ac_shutdowns]; rewrite ?T2, ?T4, ?T5, ?T6; try assumption. discriminate.
  - destruct (ac_phase s) as [|[|t rest]| | |] eqn:Ep; try discriminate; injection E as <-; [constructor; cbn; try assumption; discriminate|].
    unfold on_token. destruct (t =? system_token)%N.
    + destruct (shutdown_good ends (ac_pool s) H1) as [(p' & -> & G1 & G2 & G3 & G4 & G5)|(-> & _)].
      * constructor; cbn; rewrite ?G3; try assumption; [|lia]. intros _. split; [exact G2|exact G4].
      * constructor; cbn; try assumption. discriminate.
    + destruct (t =? N.of_nat (slab_count (ac_socks s)))%N.
      * destruct (join_good (ac_pool s) H1) as (p' & -> & G1 & G2 & G3 & G4). constructor; cbn; rewrite ?G3; try assumption. discriminate.
      * destruct (slab_get (ac_socks s) (N.to_nat t)); constructor; cbn; try assumption; discriminate.
  - destruct (ac_phase s) as [| |i rest| |] eqn:Ep; try discriminate. unfold on_accept in E. destruct (nth_error (ac_socks s) i) as [k|]; [|discriminate].
    destruct a as [|[]| |].
    + destruct (so_queue k) as [|c q]; [discriminate|]. injection E as <-. constructor; cbn [ac_pool ac_taken ac_handlers ac_phase ac_shutdowns].
      * apply spawn_good, H1.
      * rewrite accepted_app, app_length. cbn. lia.
      * rewrite accepted_app. cbn [accepted flat_map snd fst List.app pool_spawn p_next]. rewrite seq_app, combine_app by (rewrite seq_length; exact H2). rewrite <- H3. reflexivity.
      * rewrite Ep. discriminate.
      * rewrite Ep. exact H5.
    + destruct (so_queue k) as [|c q]; [discriminate|]. injection E as <-. constructor; cbn [ac_pool ac_taken ac_handlers ac_phase ac_shutdowns]; rewrite ?accepted_app; cbn [accepted flat_map snd fst]; rewrite ?app_nil_r; try assumption; rewrite Ep; [discriminate|exact H5].
    + injection E as <-. exact I.
    + destruct (so_queue k); [|discriminate]. injection E as <-. constructor; cbn; try assumption. discriminate.
    + assert (E' : Some (with_phase (with_socks s (update i sock_dereg (ac_socks s))) (AtEvents rest)) = Some s') by (destruct (so_queue k); exact E).
      clear E. injection E' as <-. constructor; cbn; try assumption. discriminate.
Qed.

(** ** Events *)
Lemma waiting_take s x y : waiting (take_event s x) y = true <-> waiting s y = true /\ x <> y.
Proof.
  destruct x as [| |i], y as [| |j]; cbn [waiting take_event ac_signal ac_pool_edge ac_socks]; try (split; [intros H; split; [exact H|discriminate]|intros [H _]; exact H]); try (split; [discriminate|intros [_ H]; congruence]).
  destruct (Nat.eq_dec i j) as [->|Hne].
  - rewrite update_eq. destruct (nth_error (ac_socks s) j); cbn; (split; [discriminate|intros [_ H]; congruence]).
  - rewrite update_ne by exact Hne. split; [intros H; split; [exact H|congruence]|intros [H _]; exact H].
Qed.
Lemma take_all_spec : forall xs s s', take_all xs s = Some s' -> NoDup xs /\ (forall x, In x xs -> waiting s x = true) /\ forall y, waiting s' y = true <-> waiting s y = true /\ ~ In y xs.
Proof.
  induction xs as [|x xs IH]; intros s s' E; cbn [take_all] in E.
  - injection E as <-. split; [constructor|]. split; [intros x []|]. intros y. cbn. tauto.
  - destruct (waiting s x) eqn:W; [|discriminate]. destruct (IH _ _ E) as (H1 & H2 & H3). split; [|split].
    + constructor; [|exact H1]. intros Hin. apply H2, waiting_take in Hin. tauto.
    + intros y [<-|Hy]; [exact W|]. apply H2, waiting_take in Hy. tauto.
    + intros y. rewrite H3, waiting_take. cbn. tauto.
Qed.
Lemma take_all_some : forall xs s, NoDup xs -> (forall x, In x xs -> waiting s x = true) -> exists s', take_all xs s = Some s'.
Proof.
  induction xs as [|x xs IH]; intros s N H; cbn [take_all]; [eauto|]. rewrite (H x) by (left; reflexivity). inversion N as [|? ? N1 N2]; subst.
  apply IH; [exact N2|]. intros y Hy. apply waiting_take. split; [apply H; right; exact Hy|]. intros ->. contradiction.
Qed.

Definition pend (p : aphase) : list N := match p with AtEvents l => l | AtAccept _ rest => rest | _ => [] end.
Definition valid (n : nat) (x : source) : Prop := match x with FromListener i => i < n | _ => True end.
Definition live (p : aphase) : bool := match p with AtEnd | AtPanic => false | _ => true end.
Lemma token_inj n x y : (N.of_nat n < 2048)%N -> valid n x -> valid n y -> token_of n x = token_of n y -> x = y.
Proof. intros H Hx Hy E. destruct x as [| |i], y as [| |j]; cbn in *; unfold system_token in *; try reflexivity; try lia. f_equal. lia. Qed.
Lemma waiting_valid s x : waiting s x = true -> valid (List.length (ac_socks s)) x.
Proof. destruct x as [| |i]; cbn; trivial. destruct (nth_error (ac_socks s) i) eqn:E; [|discriminate]. intros _. apply nth_error_Some. congruence. Qed.

(** the tokens to come stand for events; those of what has something for the loop and
    is not waiting are among them *)
Record events_inv (n : nat) (s : acceptor) : Prop := mkEI {
  ei_socks : List.length (ac_socks s) = n;
  ei_tokens : exists xs, NoDup xs /\ (forall x, In x xs -> valid n x) /\
     match ac_phase s with
     | AtEvents l => l = map (token_of n) xs
     | AtAccept i rest => i < n /\ xs <> [] /\ hd FromSystem xs = FromListener i /\ rest = map (token_of n) (tl xs)
     | _ => True
     end;
  ei_queue : forall i k, nth_error (ac_socks s) i = Some k -> so_reg k = true -> so_queue k <> [] -> live (ac_phase s) = true ->
     so_edge k = true \/ In (N.of_nat i) (pend (ac_phase s)) \/ exists rest, ac_phase s = AtAccept i rest;
  ei_pool : p_joinable (ac_pool s) <> [] -> live (ac_phase s) = true -> ac_pool_edge s = true \/ In (N.of_nat n) (pend (ac_phase s));
  ei_edge : forall i k, nth_error (ac_socks s) i = Some k -> so_edge k = true -> so_reg k = true;
}.
Lemma start_events queues : events_inv (List.length queues) (acc_start queues).
Proof.
  constructor; cbn.
  - apply map_length.
  - exists []. split; [constructor|]. split; [intros x []|exact I].
  - intros i k H _ Hq _. rewrite nth_error_map in H. destruct (nth_error queues i) as [q|]; [|discriminate]. injection H as <-. left. cbn in *. destruct q; [congruence|reflexivity].
  - congruence.
  - intros i k H _. rewrite nth_error_map in H. destruct (nth_error queues i) as [q|]; [|discriminate]. injection H as <-. reflexivity.
Qed.
Lemma no_tokens n : exists xs, NoDup xs /\ (forall x, In x xs -> valid n x) /\ True.
Proof. exists []. split; [constructor|]. split; [intros x []|exact I]. Qed.
Lemma step_events n s m s' : (N.of_nat n < 2048)%N -> handlers_inv s -> events_inv n s -> acc_step s m = Some s' -> events_inv n s'.
Proof.
  intros Hn HI I E. pose proof I as [H1 H2 H3 H4 H5]. destruct m as [j c|id|id| |xs|ends|a]; cbn [acc_step] in E.
  - destruct (j <? List.length (ac_socks s)) eqn:Hj; [|discriminate]. injection E as <-. constructor; cbn [with_socks ac_socks ac_phase ac_pool ac_pool_edge].
    + rewrite update_length. exact H1.
    + exact H2.
    + intros i k Hk Hr Hq Hl. destruct (Nat.eq_dec j i) as [->|Hne].
      * rewrite update_eq in Hk. destruct (nth_error (ac_socks s) i) as [k0|]; [|discriminate]. injection Hk as <-. cbn in *. rewrite Hr, orb_true_r. auto.
      * rewrite update_ne in Hk by exact Hne. eapply H3; eauto.
    + exact H4.
    + intros i k Hk He. destruct (Nat.eq_dec j i) as [->|Hne].
      * rewrite update_eq in Hk. destruct (nth_error (ac_socks s) i) as [k0|] eqn:E0; [|discriminate]. injection Hk as <-. cbn in *. apply orb_true_iff in He as [He|He]; [eapply H5; eauto|exact He].
      * rewrite update_ne in Hk by exact Hne. eapply H5; eauto.
  - destruct (runs_now (ac_pool s) id); [|discriminate]. injection E as <-. constructor; cbn [ac_socks ac_phase ac_pool ac_pool_edge]; try assumption. auto.
  - destruct (runs_now (ac_pool s) id); [|discriminate]. injection E as <-. constructor; cbn [with_pool ac_socks ac_phase ac_pool ac_pool_edge]; try assumption.
    intros Hj. apply H4. unfold pool_crash in Hj. destruct (alookup Nat.eqb id (p_stat (ac_pool s))) as [[]|]; exact Hj.
  - injection E as <-. constructor; assumption.
  - destruct (ac_phase s) eqn:Ep; try discriminate. destruct (take_all xs s) as [s2|] eqn:Et; [|discriminate]. injection E as <-.
    pose proof (take_all_fold _ _ _ Et) as Ef. destruct (take_all_spec _ _ _ Et) as (T1 & T2 & T3). destruct (take_events xs s) as (L & P2 & _ & _ & _ & _ & P7 & P8 & _). rewrite <- Ef in *.
    constructor; cbn [with_phase ac_socks ac_phase ac_pool ac_pool_edge pend live]; rewrite ?L, ?P2.
    + exact H1.
    + exists xs. split; [exact T1|]. split; [|rewrite H1; reflexivity]. intros x Hx. rewrite <- H1. apply waiting_valid, T2, Hx.
    + intros i k Hk Hr Hq _. destruct (nth_error (ac_socks s) i) as [k0|] eqn:E0; [|apply nth_error_None in E0; assert (Hs : i < List.length (ac_socks s2)) by (apply nth_error_Some; congruence); lia].
      destruct (P7 i k0 E0) as (k' & K1 & K2 & K3 & K4). rewrite Hk in K1. injection K1 as <-. rewrite K3 in Hr. rewrite K2 in Hq.
      destruct (H3 i k0 E0 Hr Hq eq_refl) as [He|[[]|[rest He]]]; [|discriminate]. destruct K4 as [K4|K4]; [left; congruence|]. right. left. apply (in_map (token_of (List.length (ac_socks s)))) in K4. exact K4.
    + intros Hj _. destruct (H4 Hj eq_refl) as [He|[]]. destruct P8 as [P8|P8]; [left; congruence|]. right. apply (in_map (token_of (List.length (ac_socks s)))) in P8. cbn [token_of] in P8. rewrite H1 in P8 at 1. exact P8.
    + intros i k Hk He. destruct (nth_error (ac_socks s) i) as [k0|] eqn:E0; [|apply nth_error_None in E0; assert (Hs : i < List.length (ac_socks s2)) by (apply nth_error_Some; congruence); lia].
      destruct (P7 i k0 E0) as (k' & K1 & K2 & K3 & K4). rewrite Hk in K1. injection K1 as <-. rewrite K3. apply (H5 i k0 E0).
      assert (W : waiting s2 (FromListener i) = true) by (cbn; rewrite Hk; exact He). apply T3 in W as [W _]. cbn in W. rewrite E0 in W. exact W.
  - destruct (ac_phase s) as [|[|t rest]| | |] eqn:Ep; try discriminate; injection E as <-.
    + constructor; cbn [with_phase ac_socks ac_phase ac_pool ac_pool_edge]; try assumption; [apply no_tokens|..].
      * intros i k Hk Hr Hq Hl. destruct (H3 i k Hk Hr Hq eq_refl) as [He|[[]|[r He]]]; [auto|discriminate].
    + destruct H2 as (xs & X1 & X2 & X3). destruct xs as [|x xs]; [discriminate|]. cbn [map] in X3. injection X3 as -> ->. inversion X1 as [|? ? X4 X5]; subst.
      assert (X6 : forall y, In y xs -> valid (List.length (ac_socks s)) y) by (intros y Hy; apply X2; right; exact Hy). assert (X7 : valid (List.length (ac_socks s)) x) by (apply X2; left; reflexivity).
      unfold on_token. destruct (N.eqb_spec (token_of (List.length (ac_socks s)) x) system_token) as [Es|Es].
      * destruct (pool_shutdown ends (ac_pool s)); (constructor; cbn [with_phase ac_socks ac_phase ac_pool ac_pool_edge live]; [reflexivity|apply no_tokens|discriminate|discriminate|assumption]).
      * unfold slab_count. destruct (N.eqb_spec (token_of (List.length (ac_socks s)) x) (N.of_nat (List.length (ac_socks s)))) as [Ew|Ew].
        -- destruct (join_good (ac_pool s)) as (p' & -> & G1 & G2 & G3 & G4); [apply (hi_pool s HI)|]. constructor; cbn [with_phase with_pool ac_socks ac_phase ac_pool ac_pool_edge live pend]; [reflexivity| | |congruence|assumption].
           ++ exists xs. auto.
           ++ intros i k Hk Hr Hq Hl. destruct (H3 i k Hk Hr Hq eq_refl) as [He|[He|[r He]]]; [auto| |discriminate]. cbn [pend In] in He. destruct He as [He|He]; [|auto].
              exfalso. rewrite He in Ew. assert (Hi : i < List.length (ac_socks s)) by (apply nth_error_Some; congruence). lia.
        -- unfold slab_get. destruct x as [| |i]; cbn [token_of] in Es, Ew |- *; [congruence|congruence|]. cbn [valid] in X7. rewrite Nat2N.id. destruct (nth_error (ac_socks s) i) as [k0|] eqn:E0; [|apply nth_error_None in E0; lia].
           constructor; cbn [with_phase ac_socks ac_phase ac_pool ac_pool_edge live pend]; [reflexivity| | | |assumption].
           ++ exists (FromListener i :: xs). split; [exact X1|]. split; [exact X2|]. split; [exact X7|]. split; [discriminate|]. auto.
           ++ intros i0 k Hk Hr Hq Hl. destruct (H3 i0 k Hk Hr Hq eq_refl) as [He|[He|[r He]]]; [auto| |discriminate]. cbn [pend In token_of] in He. destruct He as [He|He]; [|auto].
              right. right. assert (i = i0) as <- by lia. eauto.
           ++ intros Hj _. destruct (H4 Hj eq_refl) as [He|He]; [auto|]. cbn [pend In token_of] in He. destruct He as [He|He]; [|auto]. lia.
  - destruct (ac_phase s) as [| |i rest| |] eqn:Ep; try discriminate. unfold on_accept in E. destruct (nth_error (ac_socks s) i) as [k|] eqn:Ek; [|discriminate].
    destruct H2 as (xs & X1 & X2 & X3 & X8 & X4 & X5). destruct xs as [|x xs]; [congruence|]. cbn [hd tl] in X4, X5. subst x. inversion X1 as [|? ? X6 X7]; subst.
    assert (Tk : forall q c b p e sg sd hl, q = sock_take -> (p_joinable p <> [] -> e = true \/ In (N.of_nat (List.length (ac_socks s))) (map (token_of (List.length (ac_socks s))) xs)) ->
       events_inv (List.length (ac_socks s)) (mkAcc (update i q (ac_socks s)) p e sg (AtAccept i (map (token_of (List.length (ac_socks s))) xs)) (ac_taken s ++ [(i, c, b)]) hl sd)).
    { intros q c b p e sg sd hl -> He. constructor; cbn [ac_socks ac_phase ac_pool ac_pool_edge live pend].
      - apply update_length.
      - exists (FromListener i :: xs). split; [exact X1|]. split; [exact X2|]. split; [exact X3|]. split; [discriminate|]. auto.
      - intros i0 k0 Hk Hr Hq Hl. destruct (Nat.eq_dec i i0) as [<-|Hne]; [right; right; eauto|]. rewrite update_ne in Hk by exact Hne. exact (H3 i0 k0 Hk Hr Hq eq_refl).
      - intros Hj _. apply He, Hj.
      - intros i0 k0 Hk Hed. destruct (Nat.eq_dec i i0) as [<-|Hne]; [|rewrite update_ne in Hk by exact Hne; eapply H5; eauto]. rewrite update_eq, Ek in Hk. injection Hk as <-. exact (H5 i k Ek Hed). }
    assert (Out : forall f, (forall k0 : sock conn, so_reg (f k0) = true -> f k0 = k0) -> (forall k0 : sock conn, so_edge (f k0) = true -> f k0 = k0) -> (so_reg (f k) = true -> so_queue k = []) ->
       events_inv (List.length (ac_socks s)) (with_phase (with_socks s (update i f (ac_socks s))) (AtEvents (map (token_of (List.length (ac_socks s))) xs)))).
    { intros f F1 F3 F2. constructor; cbn [with_phase with_socks ac_socks ac_phase ac_pool ac_pool_edge live pend].
      - apply update_length.
      - exists xs. split; [exact X7|]. split; [intros y Hy; apply X2; right; exact Hy|reflexivity].
      - intros i0 k0 Hk Hr Hq Hl. destruct (Nat.eq_dec i i0) as [<-|Hne].
        + rewrite update_eq, Ek in Hk. injection Hk as <-. specialize (F2 Hr). rewrite (F1 _ Hr) in Hq. congruence.
        + rewrite update_ne in Hk by exact Hne. destruct (H3 i0 k0 Hk Hr Hq eq_refl) as [He|[He|[r He]]]; [auto|right; left; exact He|]. congruence.
      - intros Hj _. exact (H4 Hj eq_refl).
      - intros i0 k0 Hk Hed. destruct (Nat.eq_dec i i0) as [<-|Hne]; [|rewrite update_ne in Hk by exact Hne; eapply H5; eauto]. rewrite update_eq, Ek in Hk. injection Hk as <-. rewrite (F3 _ Hed) in Hed |- *. exact (H5 i k Ek Hed). }
    destruct a as [|[]| |].
    + destruct (so_queue k) as [|c q] eqn:Eq; [discriminate|]. injection E as <-. rewrite Ep. apply Tk; [reflexivity|]. intros Hj. exact (H4 Hj eq_refl).
    + destruct (so_queue k) as [|c q] eqn:Eq; [discriminate|]. injection E as <-. rewrite Ep. apply Tk; [reflexivity|]. intros Hj. exact (H4 Hj eq_refl).
    + injection E as <-. exact I.
    + destruct (so_queue k) eqn:Eq; [|discriminate]. injection E as <-. specialize (Out (fun x => x) (fun _ _ => eq_refl) (fun _ _ => eq_refl) (fun _ => eq_refl)).
      replace (update i (fun x => x) (ac_socks s)) with (ac_socks s) in Out; [exact Out|]. clear. generalize (ac_socks s) as l. revert i. intros i l. revert i. induction l as [|x l IH]; intros [|i]; cbn; congruence.
    + assert (E' : Some (with_phase (with_socks s (update i sock_dereg (ac_socks s))) (AtEvents (map (token_of (List.length (ac_socks s))) xs))) = Some s') by (destruct (so_queue k); exact E).
      clear E. injection E' as <-. apply Out; cbn; discriminate.
Qed.

(** ** What the loop does if left alone *)
Definition both n s := handlers_inv s /\ events_inv n s.
Lemma step_both n s m s' : (N.of_nat n < 2048)%N -> both n s -> acc_step s m = Some s' -> both n s'.
Proof. intros Hn [A B] E. split; [eapply step_handlers; eauto|eapply step_events; eauto]. Qed.
Lemma run_both n ms s s' : (N.of_nat n < 2048)%N -> both n s -> acc_run ms s = Some s' -> both n s'.
Proof. intros Hn. apply (run_inv (both n)). intros a m b Ha. exact (step_both n a m b Hn Ha). Qed.
Lemma start_both queues : both (List.length queues) (acc_start queues).
Proof. split; [apply start_handlers|apply start_events]. Qed.
Definition clean (p : pool) : Prop := forall id, stat p id <> Some TCrashed.
Lemma spawn_clean p : clean p -> clean (pool_spawn p).
Proof.
  intros H id. unfold stat, pool_spawn. cbn [p_stat]. destruct (Nat.eq_dec (p_next p) id) as [<-|Hne].
  - rewrite (alookup_ainsert_eq Nat.eqb nat_eqb_eq). discriminate.
  - rewrite (alookup_ainsert_ne Nat.eqb nat_eqb_eq) by exact Hne. apply H.
Qed.
Lemma drain_queue : forall q i rest s k, ac_phase s = AtAccept i rest -> nth_error (ac_socks s) i = Some k -> so_queue k = q ->
  exists ms s', Forall of_loop ms /\ acc_run ms s = Some s' /\ ac_phase s' = AtEvents rest /\ (forall x, waiting s' x = waiting s x) /\ (clean (ac_pool s) -> clean (ac_pool s')).
Proof.
  induction q as [|c q IH]; intros i rest s k Ep Ek Eq.
  - exists [Accepts Blocked], (with_phase s (AtEvents rest)). split; [repeat constructor|]. cbn [acc_run acc_step]. rewrite Ep. unfold on_accept. rewrite Ek, Eq. repeat split; auto.
  - set (s1 := mkAcc (update i sock_take (ac_socks s)) (pool_spawn (ac_pool s)) (ac_pool_edge s) (ac_signal s) (ac_phase s) (ac_taken s ++ [(i, c, true)]) (ac_handlers s ++ [(p_next (ac_pool s), c)]) (ac_shutdowns s)).
    destruct (IH i rest s1 (sock_take k)) as (ms & s' & H1 & H2 & H3 & H4 & H5).
    + exact Ep.
    + cbn. rewrite update_eq, Ek. reflexivity.
    + cbn. rewrite Eq. reflexivity.
    + exists (Accepts Accepted :: ms), s'. split; [constructor; [exact I|exact H1]|]. split; [|split; [exact H3|split]].
      * cbn [acc_run acc_step]. rewrite Ep at 1. unfold on_accept. rewrite Ek, Eq. exact H2.
      * intros x. rewrite H4. destruct x as [| |j]; try reflexivity. cbn. destruct (Nat.eq_dec i j) as [<-|Hne]; [rewrite update_eq, Ek; reflexivity|rewrite update_ne by exact Hne; reflexivity].
      * intros Hc. apply H5, spawn_clean, Hc.
Qed.
Lemma go_through n : (N.of_nat n < 2048)%N -> forall l s, both n s -> ac_phase s = AtEvents l -> ~ In system_token l \/ clean (ac_pool s) ->
  exists ms s', Forall of_loop ms /\ acc_run ms s = Some s' /\
    ((ac_phase s' = AtPoll /\ ~ In system_token l /\ (forall x, waiting s' x = waiting s x) /\ (clean (ac_pool s) -> clean (ac_pool s'))) \/ (ac_phase s' = AtEnd /\ In system_token l)).
Proof.
  intros Hn. induction l as [|t l IH]; intros s B Ep Hs.
  - exists [Next (fun _ => true)], (with_phase s AtPoll). split; [repeat constructor|]. cbn [acc_run acc_step]. rewrite Ep. split; [reflexivity|]. left. repeat split; auto.
  - pose proof B as [HI EI]. assert (Step : acc_step s (Next (fun _ => true)) = Some (on_token (fun _ => true) s t l)) by (cbn; rewrite Ep; reflexivity).
    pose proof (step_both n s _ _ Hn B Step) as B1.
    assert (Go : forall s1, acc_run [Next (fun _ => true)] s = Some s1 -> t <> system_token ->
       (exists ms1 s2, Forall of_loop ms1 /\ acc_run ms1 s1 = Some s2 /\ ac_phase s2 = AtEvents l /\ (forall x, waiting s2 x = waiting s x) /\ (clean (ac_pool s) -> clean (ac_pool s2))) ->
       exists ms s', Forall of_loop ms /\ acc_run ms s = Some s' /\
         ((ac_phase s' = AtPoll /\ ~ In system_token (t :: l) /\ (forall x, waiting s' x = waiting s x) /\ (clean (ac_pool s) -> clean (ac_pool s'))) \/ (ac_phase s' = AtEnd /\ In system_token (t :: l)))).
    { intros s1 E1 Ht (ms1 & s2 & M1 & M2 & M3 & M4 & M5).
      assert (B2 : both n s2) by (apply (run_both n ms1 s1 s2 Hn); [apply (run_both n _ _ _ Hn B E1)|exact M2]).
      destruct (IH s2 B2 M3) as (ms & s' & F1 & F2 & F3); [destruct Hs as [Hs|Hs]; [left; intros Hin; apply Hs; right; exact Hin|right; apply M5, Hs]|].
      exists (Next (fun _ => true) :: ms1 ++ ms), s'. split; [constructor; [exact I|apply Forall_app; split; assumption]|]. split.
      - change (Next (fun _ => true) :: ms1 ++ ms) with ([Next (fun _ => true)] ++ (ms1 ++ ms)). rewrite run_app, E1, run_app, M2. exact F2.
      - destruct F3 as [(P1 & P2 & P3 & P4)|(P1 & P2)]; [left|right].
        + split; [exact P1|]. split; [intros [Hx|Hx]; [congruence|exact (P2 Hx)]|]. split; [intros x; rewrite P3; apply M4|auto].
        + split; [exact P1|right; exact P2]. }
    destruct (ei_tokens n s EI) as (xs & X1 & X2 & X3). rewrite Ep in X3. destruct xs as [|x xs]; [discriminate|]. cbn [map] in X3. injection X3 as Et El.
    assert (X7 : valid n x) by (apply X2; left; reflexivity). pose proof (ei_socks n s EI) as L.
    unfold on_token in Step. destruct (N.eqb_spec t system_token) as [Es|Es].
    + assert (Hc : clean (ac_pool s)) by (destruct Hs as [Hs|Hs]; [exfalso; apply Hs; left; exact Es|exact Hs]).
      destruct (shutdown_good (fun _ => true) (ac_pool s) (hi_pool s HI)) as [(p' & Ed & _)|(_ & id & [Hid|[_ Hid]])]; [|exfalso; exact (Hc id Hid)|discriminate].
      rewrite Ed in Step. eexists [Next (fun _ => true)], _. split; [repeat constructor|]. split; [cbn [acc_run]; rewrite Step; reflexivity|]. right. split; [reflexivity|left; exact Es].
    + unfold slab_count in Step. destruct (N.eqb_spec t (N.of_nat (List.length (ac_socks s)))) as [Ew|Ew].
      * destruct (join_good (ac_pool s) (hi_pool s HI)) as (p' & Ej & G1 & G2 & G3 & G4). rewrite Ej in Step.
        apply (Go (with_phase (with_pool s p') (AtEvents l))); [cbn [acc_run]; rewrite Step; reflexivity|exact Es|].
        exists [], (with_phase (with_pool s p') (AtEvents l)). repeat split; auto. intros Hc id. cbn. unfold stat. rewrite G4. apply Hc.
      * destruct x as [| |i]; cbn [token_of] in Et; [congruence|congruence|]. cbn [valid] in X7. subst t. unfold slab_get in Step. rewrite Nat2N.id in Step.
        destruct (nth_error (ac_socks s) i) as [k|] eqn:Ek; [|apply nth_error_None in Ek; lia].
        apply (Go (with_phase s (AtAccept i l))); [cbn [acc_run]; rewrite Step; reflexivity|exact Es|].
        destruct (drain_queue (so_queue k) i l (with_phase s (AtAccept i l)) k) as (ms & s' & D1 & D2 & D3 & D4 & D5); [reflexivity|exact Ek|reflexivity|].
        exists ms, s'. split; [exact D1|]. split; [exact D2|]. split; [exact D3|]. split; [intros y; rewrite D4; destruct y; reflexivity|exact D5].
Qed.
(** to poll, or to the end if the shutdown signal is among the tokens to come *)
Lemma to_poll n s : (N.of_nat n < 2048)%N -> both n s -> running s -> ~ In system_token (pend (ac_phase s)) \/ clean (ac_pool s) ->
  exists ms s', Forall of_loop ms /\ acc_run ms s = Some s' /\
    ((ac_phase s' = AtPoll /\ ~ In system_token (pend (ac_phase s)) /\ (forall x, waiting s' x = waiting s x) /\ (clean (ac_pool s) -> clean (ac_pool s'))) \/ (ac_phase s' = AtEnd /\ In system_token (pend (ac_phase s)))).
Proof.
  intros Hn B [R1 R2] Hs. destruct (ac_phase s) as [|l|i rest| |] eqn:Ep; try congruence; cbn [pend] in *.
  - exists [], s. split; [constructor|]. split; [reflexivity|]. left. rewrite Ep. repeat split; auto.
  - apply (go_through n Hn l s B Ep Hs).
  - destruct B as [HI EI]. destruct (ei_tokens n s EI) as (xs & _ & _ & X). rewrite Ep in X. destruct X as (Hi & _). pose proof (ei_socks n s EI) as L.
    destruct (nth_error (ac_socks s) i) as [k|] eqn:Ek; [|apply nth_error_None in Ek; lia].
    destruct (drain_queue (so_queue k) i rest s k Ep Ek eq_refl) as (ms & s1 & D1 & D2 & D3 & D4 & D5).
    assert (B1 : both n s1) by (apply (run_both n ms s s1 Hn); [split; assumption|exact D2]).
    destruct (go_through n Hn rest s1 B1 D3) as (ms2 & s2 & F1 & F2 & F3); [destruct Hs as [Hs|Hs]; auto|].
    exists (ms ++ ms2), s2. split; [apply Forall_app; auto|]. split; [rewrite run_app, D2; exact F2|]. destruct F3 as [(P1 & P2 & P3 & P4)|F3]; [left|right; exact F3].
    split; [exact P1|]. split; [exact P2|]. split; [intros x; rewrite P3; apply D4|auto].
Qed.
Lemma to_idle n s : (N.of_nat n < 2048)%N -> both n s -> running s -> ac_signal s = false -> ~ In system_token (pend (ac_phase s)) ->
  exists ms s', Forall of_loop ms /\ acc_run ms s = Some s' /\ idle s'.
Proof.
  intros Hn B R Hg Hs. destruct (to_poll n s Hn B R) as (ms & s1 & F1 & F2 & [(P1 & _ & P3 & _)|(_ & P)]); [auto| |contradiction].
  assert (B1 : both n s1) by (apply (run_both n ms s s1 Hn B F2)).
  set (xs := filter (waiting s1) (FromPool :: map FromListener (seq 0 n))).
  assert (N : NoDup xs). { apply NoDup_filter. constructor; [intros Hin; apply in_map_iff in Hin as (i & Hi & _); discriminate|]. apply FinFun.Injective_map_NoDup; [intros a b [= ->]; reflexivity|apply seq_NoDup]. }
  destruct (take_all_some xs s1 N) as (s2 & E2); [intros x Hx; apply filter_In in Hx; tauto|].
  destruct (take_all_spec _ _ _ E2) as (_ & _ & T). assert (W : forall y, waiting s2 y = false).
  { intros y. destruct (waiting s2 y) eqn:Wy; [|reflexivity]. exfalso. apply T in Wy as [Wy Hno]. apply Hno. apply filter_In. split; [|exact Wy].
    destruct y as [| |i]; [rewrite P3 in Wy; cbn in Wy; congruence|left; reflexivity|right]. apply in_map_iff. exists i. split; [reflexivity|]. apply in_seq. apply waiting_valid in Wy. cbn in Wy. rewrite (ei_socks n s1 (proj2 B1)) in Wy. lia. }
  set (s3 := with_phase s2 (AtEvents (map (token_of (List.length (ac_socks s1))) xs))).
  assert (E3 : acc_step s1 (Polls xs) = Some s3) by (cbn [acc_step]; rewrite P1, E2; reflexivity).
  destruct (go_through n Hn _ s3 (step_both n s1 _ s3 Hn B1 E3) eq_refl) as (ms4 & s4 & G1 & G2 & [(Q1 & Q2 & Q3 & _)|(_ & Q)]).
  - left. intros Hin. apply in_map_iff in Hin as (x & Hx & Hin). apply filter_In in Hin as [Hin Wx]. rewrite (ei_socks n s1 (proj2 B1)) in Hx. destruct x as [| |i]; cbn in Hx; unfold system_token in Hx.
    + rewrite P3 in Wx. cbn in Wx. congruence.
    + lia.
    + apply waiting_valid in Wx. cbn in Wx. rewrite (ei_socks n s1 (proj2 B1)) in Wx. lia.
  - exists (ms ++ Polls xs :: ms4), s4. split; [apply Forall_app; split; [exact F1|constructor; [exact I|exact G1]]|]. split.
    + rewrite run_app, F2. cbn [acc_run]. rewrite E3. exact G2.
    + split; [exact Q1|]. intros x. rewrite Q3. unfold s3. destruct x; [exact (W FromSystem)|exact (W FromPool)|exact (W (FromListener i))].
  - exfalso. apply in_map_iff in Q as (x & Hx & Hin). apply filter_In in Hin as [Hin Wx]. rewrite (ei_socks n s1 (proj2 B1)) in Hx. destruct x as [| |i]; cbn in Hx; unfold system_token in Hx.
    + rewrite P3 in Wx. cbn in Wx. congruence.
    + lia.
    + apply waiting_valid in Wx. cbn in Wx. rewrite (ei_socks n s1 (proj2 B1)) in Wx. lia.
Qed.
Lemma to_end n s : (N.of_nat n < 2048)%N -> both n s -> running s -> clean (ac_pool s) -> ac_signal s = true \/ In system_token (pend (ac_phase s)) ->
  exists ms s', Forall of_loop ms /\ acc_run ms s = Some s' /\ ac_phase s' = AtEnd.
Proof.
  intros Hn B R Hc Hg. destruct (to_poll n s Hn B R) as (ms & s1 & F1 & F2 & [(P1 & P2 & P3 & P4)|(P & _)]); [auto| |eauto].
  destruct Hg as [Hg|Hg]; [|contradiction]. assert (B1 : both n s1) by (apply (run_both n ms s s1 Hn B F2)).
  assert (W : waiting s1 FromSystem = true) by (rewrite P3; exact Hg).
  assert (E3 : acc_step s1 (Polls [FromSystem]) = Some (with_phase (take_event s1 FromSystem) (AtEvents [system_token]))) by (cbn [acc_step]; rewrite P1; cbn [take_all]; rewrite W; reflexivity).
  destruct (go_through n Hn [system_token] _ (step_both n s1 _ _ Hn B1 E3) eq_refl) as (ms4 & s4 & G1 & G2 & [(_ & Q & _)|(Q & _)]).
  - right. apply P4, Hc.
  - exfalso. apply Q. left. reflexivity.
  - exists (ms ++ Polls [FromSystem] :: ms4), s4. split; [apply Forall_app; split; [exact F1|constructor; [exact I|exact G1]]|]. split; [|exact Q]. rewrite run_app, F2. cbn [acc_run]. rewrite E3. exact G2.
Qed.

(** ** Panics, the signal, lost listeners *)
Lemma step_sane n s m s' : (N.of_nat n < 2048)%N -> both n s -> clean (ac_pool s) /\ ac_phase s <> AtPanic -> no_crash [m] -> acc_step s m = Some s' -> clean (ac_pool s') /\ ac_phase s' <> AtPanic.
Proof.
  intros Hn [HI EI] [Hc Hp] Nc E. specialize (Nc m (or_introl eq_refl)). destruct m as [j c|id|id| |xs|ends|a]; cbn [acc_step] in E.
  - destruct (j <? List.length (ac_socks s)); [|discriminate]. injection E as <-. cbn. auto.
  - destruct (runs_now (ac_pool s) id); [|discriminate]. injection E as <-. cbn. split; [|exact Hp]. intros x. unfold stat, pool_finish. specialize (Hc x). unfold stat in Hc.
    destruct (alookup Nat.eqb id (p_stat (ac_pool s))) as [[]|] eqn:El; try exact Hc. cbn [p_stat]. destruct (Nat.eq_dec id x) as [<-|Hne]; [rewrite (alookup_ainsert_eq Nat.eqb nat_eqb_eq); discriminate|rewrite (alookup_ainsert_ne Nat.eqb nat_eqb_eq) by exact Hne; exact Hc].
  - destruct Nc.
  - injection E as <-. cbn. auto.
  - destruct (ac_phase s) eqn:Ep; try discriminate. destruct (take_all xs s) as [s2|] eqn:Et; [|discriminate]. apply take_all_fold in Et. subst s2. injection E as <-. destruct (take_events xs s) as (_ & T2 & _). cbn [with_phase ac_pool ac_phase]. rewrite T2. split; [exact Hc|discriminate].
  - destruct (ac_phase s) as [|[|t rest]| | |] eqn:Ep; try discriminate; injection E as <-; [cbn; split; [exact Hc|discriminate]|].
    destruct (ei_tokens n s EI) as (xs & X1 & X2 & X3). rewrite Ep in X3. destruct xs as [|x xs]; [discriminate|]. cbn [map] in X3. injection X3 as Et El.
    assert (X7 : valid n x) by (apply X2; left; reflexivity). pose proof (ei_socks n s EI) as L.
    unfold on_token. destruct (t =? system_token)%N eqn:E1.
    + destruct (shutdown_good ends (ac_pool s) (hi_pool s HI)) as [(p' & -> & G1 & _ & G3 & G4 & _)|(_ & id & [Hid|[_ Hid]])]; [|exfalso; exact (Hc id Hid)|rewrite Nc in Hid; discriminate].
      cbn. split; [|discriminate]. intros id Hid. assert (Hlt : id < p_next p') by (apply (pi_stat p' (proj1 G1)); rewrite Hid; discriminate). rewrite G3 in Hlt. destruct (G4 id Hlt) as (_ & H). congruence.
    + destruct (t =? N.of_nat (slab_count (ac_socks s)))%N eqn:E2.
      * destruct (join_good (ac_pool s) (hi_pool s HI)) as (p' & -> & G1 & G2 & G3 & G4). cbn. split; [|discriminate]. intros id. unfold stat. rewrite G4. apply Hc.
      * apply N.eqb_neq in E1, E2. unfold slab_count in E2. destruct x as [| |i]; cbn [token_of] in Et; [congruence|congruence|]. cbn [valid] in X7. subst t. unfold slab_get. rewrite Nat2N.id.
        destruct (nth_error (ac_socks s) i) eqn:Ek; [cbn; split; [exact Hc|discriminate]|apply nth_error_None in Ek; lia].
  - destruct (ac_phase s) as [| |i rest| |] eqn:Ep; try discriminate. unfold on_accept in E. destruct (nth_error (ac_socks s) i) as [k|]; [|discriminate].
    destruct a as [|[]| |].
    + destruct (so_queue k); [discriminate|]. injection E as <-. cbn [ac_pool ac_phase]. rewrite Ep. split; [apply spawn_clean, Hc|discriminate].
    + destruct (so_queue k); [discriminate|]. injection E as <-. cbn [ac_pool ac_phase]. rewrite Ep. split; [exact Hc|discriminate].
    + injection E as <-. rewrite Ep. split; [exact Hc|discriminate].
    + destruct (so_queue k); [|discriminate]. injection E as <-. cbn. split; [exact Hc|discriminate].
    + assert (E' : Some (with_phase (with_socks s (update i sock_dereg (ac_socks s))) (AtEvents rest)) = Some s') by (destruct (so_queue k); exact E).
      clear E. injection E' as <-. cbn. split; [exact Hc|discriminate].
Qed.
Lemma run_sane n : (N.of_nat n < 2048)%N -> forall ms s s', both n s -> clean (ac_pool s) /\ ac_phase s <> AtPanic -> no_crash ms -> acc_run ms s = Some s' -> clean (ac_pool s') /\ ac_phase s' <> AtPanic.
Proof.
  intros Hn. induction ms as [|m ms IH]; intros s s' B Hc Nc E; cbn [acc_run] in E; [injection E as <-; exact Hc|]. destruct (acc_step s m) as [s1|] eqn:E1; [|discriminate].
  apply (IH s1 s').
  - eapply step_both; eauto.
  - apply (step_sane n s m s1 Hn B Hc); [|exact E1]. intros m' [<-|[]]. apply Nc. left. reflexivity.
  - intros m' Hm. apply Nc. right. exact Hm.
  - exact E.
Qed.
(** the phase after a move, as far as the tokens to come go *)
Lemma step_pend s m s' : acc_step s m = Some s' ->
  (ac_phase s' = ac_phase s) \/
  (exists xs, m = Polls xs /\ ac_phase s = AtPoll /\ ac_phase s' = AtEvents (map (token_of (List.length (ac_socks s))) xs) /\ forall x, In x xs -> waiting s x = true) \/
  (exists ends, m = Next ends /\ ac_phase s = AtEvents [] /\ ac_phase s' = AtPoll) \/
  (exists ends t rest, m = Next ends /\ ac_phase s = AtEvents (t :: rest) /\
     ((t = system_token /\ (ac_phase s' = AtEnd \/ ac_phase s' = AtPanic)) \/ (t <> system_token /\ t = N.of_nat (List.length (ac_socks s)) /\ (ac_phase s' = AtEvents rest \/ ac_phase s' = AtPanic)) \/
      (t <> system_token /\ t <> N.of_nat (List.length (ac_socks s)) /\ (ac_phase s' = AtAccept (N.to_nat t) rest \/ ac_phase s' = AtPanic)))) \/
  (exists a i rest, m = Accepts a /\ ac_phase s = AtAccept i rest /\ ac_phase s' = AtEvents rest).
Proof.
  intros E. destruct m as [j c|id|id| |xs|ends|a]; cbn [acc_step] in E.
  - destruct (j <? List.length (ac_socks s)); [|discriminate]. injection E as <-. auto.
  - destruct (runs_now (ac_pool s) id); [|discriminate]. injection E as <-. auto.
  - destruct (runs_now (ac_pool s) id); [|discriminate]. injection E as <-. auto.
  - injection E as <-. auto.
  - destruct (ac_phase s) eqn:Ep; try discriminate. destruct (take_all xs s) as [s2|] eqn:Et; [|discriminate]. injection E as <-. right. left. exists xs. repeat split; auto. apply (take_all_spec _ _ _ Et).
  - destruct (ac_phase s) as [|[|t rest]| | |] eqn:Ep; try discriminate; injection E as <-; [right; right; left; eauto|]. right. right. right. left. exists ends, t, rest. split; [reflexivity|]. split; [reflexivity|].
    unfold on_token. destruct (N.eqb_spec t system_token) as [Es|Es].
    + left. split; [exact Es|]. destruct (pool_shutdown ends (ac_pool s)); cbn; auto.
    + right. unfold slab_count. destruct (N.eqb_spec t (N.of_nat (List.length (ac_socks s)))) as [Ew|Ew].
      * left. destruct (join_ready (ac_pool s)); cbn; auto.
      * right. destruct (slab_get (ac_socks s) (N.to_nat t)); cbn; auto.
  - destruct (ac_phase s) as [| |i rest| |] eqn:Ep; try discriminate. unfold on_accept in E. destruct (nth_error (ac_socks s) i) as [k|]; [|discriminate].
    destruct a as [|[]| |].
    + destruct (so_queue k); [discriminate|]. injection E as <-. auto.
    + destruct (so_queue k); [discriminate|]. injection E as <-. auto.
    + injection E as <-. auto.
    + destruct (so_queue k); [|discriminate]. injection E as <-. right. right. right. right. exists Blocked, i, rest. auto.
    + assert (E' : Some (with_phase (with_socks s (update i sock_dereg (ac_socks s))) (AtEvents rest)) = Some s') by (destruct (so_queue k); exact E).
      clear E. injection E' as <-. right. right. right. right. exists Failed, i, rest. auto.
Qed.
Lemma step_signal s m s' : acc_step s m = Some s' -> m <> Signalled -> ac_signal s' = ac_signal s \/ exists xs, m = Polls xs /\ In FromSystem xs /\ ac_signal s = true.
Proof.
  intros E Hm. destruct m as [j c|id|id| |xs|ends|a]; cbn [acc_step] in E.
  - destruct (j <? List.length (ac_socks s)); [|discriminate]. injection E as <-. auto.
  - destruct (runs_now (ac_pool s) id); [|discriminate]. injection E as <-. auto.
  - destruct (runs_now (ac_pool s) id); [|discriminate]. injection E as <-. auto.
  - congruence.
  - destruct (ac_phase s) eqn:Ep; try discriminate. destruct (take_all xs s) as [s2|] eqn:Et; [|discriminate]. injection E as <-. destruct (take_all_spec _ _ _ Et) as (_ & T & _). apply take_all_fold in Et. subst s2. destruct (take_events xs s) as (_ & _ & _ & _ & _ & _ & _ & _ & [H|H]); [left; exact H|].
    right. exists xs. split; [reflexivity|]. split; [exact H|]. exact (T _ H).
  - destruct (ac_phase s) as [|[|t rest]| | |]; try discriminate; injection E as <-; [auto|]. left. destruct (on_token_same ends s t rest) as (_ & _ & _ & _ & H). exact H.
  - destruct (ac_phase s) as [| |i rest| |]; try discriminate. unfold on_accept in E. destruct (nth_error (ac_socks s) i) as [k|]; [|discriminate].
    destruct a as [|[]| |].
    + destruct (so_queue k); [discriminate|]. injection E as <-. auto.
    + destruct (so_queue k); [discriminate|]. injection E as <-. auto.
    + injection E as <-. auto.
    + destruct (so_queue k); [|discriminate]. injection E as <-. auto.
    + assert (E' : Some (with_phase (with_socks s (update i sock_dereg (ac_socks s))) (AtEvents rest)) = Some s') by (destruct (so_queue k); exact E).
      clear E. injection E' as <-. auto.
Qed.
Definition quiet s := ac_signal s = false /\ ~ In system_token (pend (ac_phase s)) /\ ac_phase s <> AtEnd.
Definition told s := ac_signal s = true \/ In system_token (pend (ac_phase s)) \/ live (ac_phase s) = false.
Lemma step_quiet n s m s' : (N.of_nat n < 2048)%N -> both n s -> quiet s -> m <> Signalled -> acc_step s m = Some s' -> quiet s'.
Proof.
  intros Hn [HI EI] (Q1 & Q2 & Q3) Hm E. pose proof (ei_socks n s EI) as L. split; [|split].
  - destruct (step_signal s m s' E Hm) as [H|(xs & _ & _ & H)]; congruence.
  - destruct (step_pend s m s' E) as [Hp|[(xs & -> & Hp & Hp' & W)|[(ends & -> & Hp & Hp')|[(ends & t & rest & -> & Hp & Hp')|(a & i & rest & -> & Hp & Hp')]]]].
    + rewrite Hp. exact Q2.
    + rewrite Hp'. cbn [pend]. intros Hin. apply in_map_iff in Hin as (x & Hx & Hin). pose proof (W x Hin) as Wx. destruct x as [| |i]; cbn in Hx, Wx; unfold system_token in Hx; [congruence|lia|].
      assert (V := waiting_valid s (FromListener i) (W _ Hin)). cbn in V. lia.
    + rewrite Hp'. intros [].
    + rewrite Hp in Q2. cbn [pend In] in Q2. destruct Hp' as [(-> & _)|[(_ & _ & [->| ->])|(_ & _ & [->| ->])]]; cbn [pend]; try tauto.
    + rewrite Hp in Q2. rewrite Hp'. exact Q2.
  - destruct (step_pend s m s' E) as [Hp|[(xs & -> & Hp & Hp' & W)|[(ends & -> & Hp & Hp')|[(ends & t & rest & -> & Hp & Hp')|(a & i & rest & -> & Hp & Hp')]]]]; try congruence.
    rewrite Hp in Q2. cbn [pend In] in Q2. destruct Hp' as [(-> & _)|[(_ & _ & [->| ->])|(_ & _ & [->| ->])]]; try discriminate. exfalso. apply Q2. left. reflexivity.
Qed.
Lemma step_told s m s' : told s -> acc_step s m = Some s' -> told s'.
Proof.
  intros T E. assert (Hm : m = Signalled \/ m <> Signalled) by (destruct m; try (right; discriminate); left; reflexivity).
  destruct Hm as [->|Hm]; [cbn in E; injection E as <-; left; reflexivity|].
  destruct T as [T|[T|T]].
  - destruct (step_signal s m s' E Hm) as [H|(xs & -> & Hin & _)]; [left; congruence|]. right. left. destruct (step_pend s _ s' E) as [Hp|[(xs' & [= <-] & Hp & Hp' & W)|[(ends & Hx & _)|[(ends & t & rest & Hx & _)|(a & i & rest & Hx & _)]]]]; try discriminate.
    + exfalso. cbn in E. destruct (ac_phase s) eqn:Ep; try discriminate. destruct (take_all xs s) as [s2|]; [|discriminate]. injection E as <-. cbn in Hp. congruence.
    + rewrite Hp'. cbn [pend]. apply (in_map (token_of (List.length (ac_socks s)))) in Hin. exact Hin.
  - destruct (step_pend s m s' E) as [Hp|[(xs & -> & Hp & Hp' & W)|[(ends & -> & Hp & Hp')|[(ends & t & rest & -> & Hp & Hp')|(a & i & rest & -> & Hp & Hp')]]]]; unfold told.
    + rewrite Hp. auto.
    + rewrite Hp in T. destruct T.
    + rewrite Hp in T. destruct T.
    + rewrite Hp in T. cbn [pend In] in T. destruct Hp' as [(_ & [->| ->])|[(Hne & _ & [->| ->])|(Hne & _ & [->| ->])]]; cbn [live pend]; auto; destruct T as [T|T]; auto; congruence.
    + rewrite Hp in T. rewrite Hp'. auto.
  - destruct (step_pend s m s' E) as [Hp|[(xs & -> & Hp & Hp' & W)|[(ends & -> & Hp & Hp')|[(ends & t & rest & -> & Hp & Hp')|(a & i & rest & -> & Hp & Hp')]]]]; unfold told; try (rewrite Hp in T; discriminate).
    rewrite Hp. auto.
Qed.
Lemma run_quiet n : (N.of_nat n < 2048)%N -> forall ms s s', both n s -> quiet s -> ~ In Signalled ms -> acc_run ms s = Some s' -> quiet s'.
Proof.
  intros Hn. induction ms as [|m ms IH]; intros s s' B Q Hm E; cbn [acc_run] in E; [injection E as <-; exact Q|]. destruct (acc_step s m) as [s1|] eqn:E1; [|discriminate].
  apply (IH s1 s'); [eapply step_both; eauto|eapply step_quiet; eauto; intros ->; apply Hm; left; reflexivity|intros Hx; apply Hm; right; exact Hx|exact E].
Qed.
Lemma run_told : forall ms s s', In Signalled ms -> acc_run ms s = Some s' -> told s'.
Proof.
  induction ms as [|m ms IH]; intros s s' Hm E; [destruct Hm|]. cbn [acc_run] in E. destruct (acc_step s m) as [s1|] eqn:E1; [|discriminate]. destruct Hm as [->|Hm]; [|apply (IH s1 s' Hm E)].
  apply (run_inv told step_told ms s1 s'); [|exact E]. cbn in E1. injection E1 as <-. left. reflexivity.
Qed.

Definition dead (i : nat) (s : acceptor) : Prop :=
  (exists k, nth_error (ac_socks s) i = Some k /\ so_reg k = false /\ so_edge k = false) /\ ~ In (N.of_nat i) (pend (ac_phase s)) /\ forall rest, ac_phase s <> AtAccept i rest.
Lemma step_dead n i s m s' : (N.of_nat n < 2048)%N -> both n s -> dead i s -> acc_step s m = Some s' -> dead i s' /\ taken_from i (ac_taken s') = taken_from i (ac_taken s).
Proof.
  intros Hn [HI EI] ((k & K1 & K2 & K3) & D2 & D3) E. pose proof (ei_socks n s EI) as L. assert (Hi : i < n) by (rewrite <- L; apply nth_error_Some; congruence).
  assert (Ph : ~ In (N.of_nat i) (pend (ac_phase s')) /\ forall rest, ac_phase s' <> AtAccept i rest).
  { destruct (step_pend s m s' E) as [Hp|[(xs & -> & Hp & Hp' & W)|[(ends & -> & Hp & Hp')|[(ends & t & rest & -> & Hp & Hp')|(a & j & rest & -> & Hp & Hp')]]]].
    - rewrite Hp. auto.
    - rewrite Hp'. split; [|discriminate]. cbn [pend]. intros Hin. apply in_map_iff in Hin as (x & Hx & Hin). pose proof (W x Hin) as Wx. destruct x as [| |j]; cbn in Hx, Wx; unfold system_token in Hx; [lia|lia|].
      assert (j = i) as -> by lia. rewrite K1 in Wx. congruence.
    - rewrite Hp'. split; [intros []|discriminate].
    - rewrite Hp in D2. cbn [pend In] in D2. destruct Hp' as [(_ & [->| ->])|[(Hne & _ & [->| ->])|(Hne & _ & [->| ->])]]; cbn [pend]; (split; [tauto|try discriminate]). intros r [= Ht _]. apply D2. left. lia.
    - rewrite Hp in D2. rewrite Hp'. split; [exact D2|discriminate]. }
  assert (G : (exists k', nth_error (ac_socks s') i = Some k' /\ so_reg k' = false /\ so_edge k' = false) /\ taken_from i (ac_taken s') = taken_from i (ac_taken s)).
  { destruct m as [j c|id|id| |xs|ends|a]; cbn [acc_step] in E.
    - destruct (j <? List.length (ac_socks s)); [|discriminate]. injection E as <-. cbn [with_socks ac_socks ac_taken]. split; [|reflexivity]. destruct (Nat.eq_dec j i) as [->|Hne].
      + rewrite update_eq, K1. eexists. split; [reflexivity|]. cbn. rewrite K2, K3. auto.
      + rewrite update_ne by exact Hne. eauto.
    - destruct (runs_now (ac_pool s) id); [|discriminate]. injection E as <-. cbn. eauto.
    - destruct (runs_now (ac_pool s) id); [|discriminate]. injection E as <-. cbn. eauto.
    - injection E as <-. cbn. eauto.
    - destruct (ac_phase s) eqn:Ep; try discriminate. destruct (take_all xs s) as [s2|] eqn:Et; [|discriminate]. injection E as <-. destruct (take_all_spec _ _ _ Et) as (_ & T2 & T3). apply take_all_fold in Et. destruct (take_events xs s) as (_ & _ & _ & P4 & _ & _ & P7 & _). rewrite <- Et in *.
      cbn [with_phase ac_socks ac_taken]. rewrite P4. split; [|reflexivity]. destruct (P7 i k K1) as (k' & Q1 & Q2 & Q3 & Q4). exists k'. split; [exact Q1|]. split; [congruence|]. destruct Q4 as [Q4|Q4]; [congruence|]. apply T2 in Q4. cbn in Q4. rewrite K1 in Q4. congruence.
    - destruct (ac_phase s) as [|[|t rest]| | |]; try discriminate; injection E as <-; [cbn; eauto|]. destruct (on_token_same ends s t rest) as (S1 & S2 & _). cbv zeta in *. rewrite S1, S2. eauto.
    - destruct (ac_phase s) as [| |j rest| |] eqn:Ep; try discriminate. assert (Hne : j <> i) by (intros ->; apply (D3 rest); reflexivity). unfold on_accept in E. destruct (nth_error (ac_socks s) j) as [k0|]; [|discriminate].
      assert (Tk : forall c b, taken_from i (ac_taken s ++ [(j, c, b)]) = taken_from i (ac_taken s)) by (intros c b; rewrite taken_from_app; cbn; apply Nat.eqb_neq in Hne; rewrite Hne; apply app_nil_r).
      destruct a as [|[]| |].
      + destruct (so_queue k0); [discriminate|]. injection E as <-. cbn [ac_socks ac_taken]. rewrite update_ne by exact Hne. rewrite Tk. eauto.
      + destruct (so_queue k0); [discriminate|]. injection E as <-. cbn [ac_socks ac_taken]. rewrite update_ne by exact Hne. rewrite Tk. eauto.
      + injection E as <-. eauto.
      + destruct (so_queue k0); [|discriminate]. injection E as <-. cbn. eauto.
      + assert (E' : Some (with_phase (with_socks s (update j sock_dereg (ac_socks s))) (AtEvents rest)) = Some s') by (destruct (so_queue k0); exact E).
        clear E. injection E' as <-. cbn [with_phase with_socks ac_socks ac_taken]. rewrite update_ne by exact Hne. eauto. }
  destruct G as [G1 G2]. split; [|exact G2]. split; [exact G1|exact Ph].
Qed.
Lemma run_dead n i : (N.of_nat n < 2048)%N -> forall ms s s', both n s -> dead i s -> acc_run ms s = Some s' -> taken_from i (ac_taken s') = taken_from i (ac_taken s).
Proof.
  intros Hn. induction ms as [|m ms IH]; intros s s' B D E; cbn [acc_run] in E; [injection E as <-; reflexivity|]. destruct (acc_step s m) as [s1|] eqn:E1; [|discriminate].
  destruct (step_dead n i s m s1 Hn B D E1) as [D1 T]. rewrite <- T. apply (IH s1 s'); [eapply step_both; eauto|exact D1|exact E].
Qed.
Lemma fail_dead n i rest s s' : (N.of_nat n < 2048)%N -> both n s -> ac_phase s = AtAccept i rest -> acc_step s (Accepts Failed) = Some s' -> dead i s'.
Proof.
  intros Hn [HI EI] Ep E. destruct (ei_tokens n s EI) as (xs & X1 & X2 & X3). rewrite Ep in X3. destruct X3 as (Hi & Hx & Hh & Hr). destruct xs as [|x xs]; [congruence|]. cbn [hd tl] in Hh, Hr. subst x.
  cbn [acc_step] in E. rewrite Ep in E. unfold on_accept in E. destruct (nth_error (ac_socks s) i) as [k|] eqn:Ek; [|discriminate].
  assert (E' : Some (with_phase (with_socks s (update i sock_dereg (ac_socks s))) (AtEvents rest)) = Some s') by (destruct (so_queue k); exact E). clear E. injection E' as <-.
  split; [|split; [|discriminate]].
  - cbn. rewrite update_eq, Ek. eexists. split; [reflexivity|]. auto.
  - cbn [with_phase ac_phase pend]. subst rest. intros Hin. apply in_map_iff in Hin as (y & Hy & Hin). inversion X1 as [|? ? X4 X5]; subst. apply X4.
    assert (y = FromListener i) as <- by (apply (token_inj n); [exact Hn|apply X2; right; exact Hin|exact Hi|exact Hy]). exact Hin.
Qed.
Lemma run_registered : forall ms s s', (forall i k, nth_error (ac_socks s) i = Some k -> so_reg k = true) -> no_failure ms -> acc_run ms s = Some s' ->
  forall i k, nth_error (ac_socks s') i = Some k -> so_reg k = true.
Proof.
  induction ms as [|m ms IH]; intros s s' H Nf E; cbn [acc_run] in E; [injection E as <-; exact H|]. destruct (acc_step s m) as [s1|] eqn:E1; [|discriminate].
  apply (IH s1 s'); [|intros Hin; apply Nf; right; exact Hin|exact E]. clear IH E. intros i k Hk.
  assert (U : forall j f, (forall k0 : sock conn, so_reg (f k0) = so_reg k0) -> nth_error (update j f (ac_socks s)) i = Some k -> so_reg k = true).
  { intros j f Hf Hu. destruct (Nat.eq_dec j i) as [->|Hne]; [|rewrite update_ne in Hu by exact Hne; eauto]. rewrite update_eq in Hu. destruct (nth_error (ac_socks s) i) eqn:E0; [|discriminate]. injection Hu as <-. rewrite Hf. eauto. }
  destruct m as [j c|id|id| |xs|ends|a]; cbn [acc_step] in E1.
  - destruct (j <? List.length (ac_socks s)); [|discriminate]. injection E1 as <-. cbn in Hk. apply U in Hk; auto.
  - destruct (runs_now (ac_pool s) id); [|discriminate]. injection E1 as <-. eauto.
  - destruct (runs_now (ac_pool s) id); [|discriminate]. injection E1 as <-. eauto.
  - injection E1 as <-. eauto.
  - destruct (ac_phase s) eqn:Ep; try discriminate. destruct (take_all xs s) as [s2|] eqn:Et; [|discriminate]. injection E1 as <-. apply take_all_fold in Et. destruct (take_events xs s) as (Ls & _ & _ & _ & _ & _ & P7 & _). rewrite <- Et in *. cbn in Hk.
    destruct (nth_error (ac_socks s) i) as [k0|] eqn:E0; [|apply nth_error_None in E0; assert (Hs : i < List.length (ac_socks s2)) by (apply nth_error_Some; congruence); lia].
    destruct (P7 i k0 E0) as (k' & K1 & _ & K3 & _). rewrite Hk in K1. injection K1 as <-. rewrite K3. eauto.
  - destruct (ac_phase s) as [|[|t rest]| | |]; try discriminate; injection E1 as <-; [eauto|]. destruct (on_token_same ends s t rest) as (S1 & _). cbv zeta in S1. rewrite S1 in Hk. eauto.
  - destruct (ac_phase s) as [| |j rest| |] eqn:Ep; try discriminate. unfold on_accept in E1. destruct (nth_error (ac_socks s) j) as [k0|]; [|discriminate].
    destruct a as [|[]| |].
    + destruct (so_queue k0); [discriminate|]. injection E1 as <-. cbn in Hk. apply U in Hk; auto.
    + destruct (so_queue k0); [discriminate|]. injection E1 as <-. cbn in Hk. apply U in Hk; auto.
    + injection E1 as <-. eauto.
    + destruct (so_queue k0); [|discriminate]. injection E1 as <-. eauto.
    + exfalso. apply Nf. left. reflexivity.
Qed.
