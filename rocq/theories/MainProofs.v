(** * Proofs about the process from start to exit *)
From Verif Require Import Base BaseFacts TelemetryModel FlowModel FlowSpec FlowProofs TopologyModel TopologySpec TopologyProofs TopologyProps NetworkModel NetworkSpec NetworkProofs LiveSpec LiveProofs MainModel MainSpec.
From Coq Require Import Lia.
Open Scope string_scope. Open Scope list_scope. Open Scope nat_scope.

Lemma teqb_eq a b : teqb a b = true <-> a = b.
Proof. destruct a, b; cbn; rewrite ?seqb_eq; split; intros H; try discriminate; congruence. Qed.

Section Main.
Context `{Q : QLib} {S : Type}.
Variable proc : string -> S -> event -> S * list event * option event.
Variable st0 : string -> S.
Variable fint : string -> option N.
Variable t : started.
Variable work : list chore.
Notation nstep := (nstep proc fint).
Notation pstep := (pstep proc fint t work).
Notation prun := (prun proc st0 fint t work).

Lemma ended_step (s s' : @net Q S) l th : nstep t s l s' -> ended s th -> ended s' th.
Proof.
  intros St E.
  destruct St as [i sends k e H1 H2 H3 H4|i sends H1 H2 H3|H1|u d e r ok H1|d sources sends e q H1 H2 H3 H4|d sources e q H1 H2 H3 H4|d sources o e H1 H2 H3].
  - destruct th as [j|j|j]; cbn [ended] in *; cbn; auto. destruct E as [E1 E2]. split; [exact E1|].
    unfold upd. destruct (weqb (Src i k) (Src j 0)) eqn:W; [|exact E2]. apply weqb_eq in W. injection W as -> ->. congruence.
  - destruct th as [j|j|j]; cbn [ended] in *; cbn; auto. destruct E as [E1 E2]. unfold upd. destruct (seqb i j) eqn:W; [apply seqb_eq in W; subst; congruence|].
    cbn. rewrite W. auto.
  - destruct th as [j|j|j]; exact E.
  - replace (n_out (set_out u r (if ok then set_queue d (n_queue s d ++ [e]) s else s))) with (upd weqb u r (n_out s)) in * by (destruct ok; reflexivity).
    destruct th as [j|j|j]; cbn [ended] in *; try (destruct ok; exact E); destruct E as [E1 E2]; (split; [destruct ok; exact E1|]).
    + replace (n_out (set_out u r (if ok then set_queue d (n_queue s d ++ [e]) s else s))) with (upd weqb u r (n_out s)) by (destruct ok; reflexivity).
      unfold upd. destruct (weqb u (Src j 0)) eqn:W; [|exact E2]. apply weqb_eq in W. subst. congruence.
    + replace (n_out (set_out u r (if ok then set_queue d (n_queue s d ++ [e]) s else s))) with (upd weqb u r (n_out s)) by (destruct ok; reflexivity).
      unfold upd. destruct (weqb u (Fil j)) eqn:W; [|exact E2]. apply weqb_eq in W. subst. congruence.
  - destruct th as [j|j|j]; cbn [ended] in *; cbn [n_done n_out n_sink n_filter set_out set_filter set_queue]; auto.
    unfold upd. cbn [weqb]. destruct (seqb d j) eqn:W; [|auto]. apply seqb_eq in W. subst. destruct E. congruence.
  - destruct th as [j|j|j]; cbn [ended] in *; cbn [n_done n_out n_sink n_filter set_sink set_queue]; auto.
    unfold upd. destruct (seqb d j) eqn:W; [|auto]. apply seqb_eq in W. subst. congruence.
  - destruct th as [j|j|j]; cbn [ended] in *; cbn [n_done n_out n_sink n_filter set_sink]; auto.
    unfold upd. destruct (seqb d j) eqn:W; [|auto]. apply seqb_eq in W. subst. congruence.
Qed.
(** a thread ends by a step of its own *)
Lemma ended_own (s s' : @net Q S) l th : nstep t s l s' -> ended s' th -> ended s th \/ acts l th.
Proof.
  intros St E.
  destruct St as [i sends k e H1 H2 H3 H4|i sends H1 H2 H3|H1|u d e r ok H1|d sources sends e q H1 H2 H3 H4|d sources e q H1 H2 H3 H4|d sources o e H1 H2 H3].
  - destruct th as [j|j|j]; cbn [ended] in *; cbn in E; auto. destruct E as [E1 E2]. unfold upd in E2. destruct (weqb (Src i k) (Src j 0)) eqn:W; [|auto].
    apply weqb_eq in W. injection W as -> ->. right. reflexivity.
  - destruct th as [j|j|j]; cbn [ended] in *; cbn in E; auto. unfold upd in E. destruct (seqb i j) eqn:W; [apply seqb_eq in W; right; cbn; congruence|].
    cbn in E. rewrite W in E. auto.
  - destruct th as [j|j|j]; auto.
  - destruct th as [j|j|j]; cbn [ended] in *.
    + replace (n_out (set_out u r (if ok then set_queue d (n_queue s d ++ [e]) s else s))) with (upd weqb u r (n_out s)) in E by (destruct ok; reflexivity).
      unfold upd in E. destruct (weqb u (Src j 0)) eqn:W; [apply weqb_eq in W; subst; right; reflexivity|]. left. destruct ok; exact E.
    + left. destruct ok; exact E.
    + replace (n_out (set_out u r (if ok then set_queue d (n_queue s d ++ [e]) s else s))) with (upd weqb u r (n_out s)) in E by (destruct ok; reflexivity).
      unfold upd in E. destruct (weqb u (Fil j)) eqn:W; [apply weqb_eq in W; subst; right; reflexivity|]. left. destruct ok; exact E.
  - destruct th as [j|j|j]; cbn [ended] in *; cbn [n_done n_out n_sink n_filter set_out set_filter set_queue] in E; auto.
    unfold upd in E. cbn [weqb] in E. destruct (seqb d j) eqn:W; [apply seqb_eq in W; subst; right; reflexivity|auto].
  - destruct th as [j|j|j]; cbn [ended] in *; cbn [n_done n_out n_sink n_filter set_sink set_queue] in E; auto.
    unfold upd in E. destruct (seqb d j) eqn:W; [apply seqb_eq in W; subst; right; reflexivity|auto].
  - destruct th as [j|j|j]; cbn [ended] in *; cbn [n_done n_out n_sink n_filter set_sink] in E; auto.
    unfold upd in E. destruct (seqb d j) eqn:W; [apply seqb_eq in W; subst; right; reflexivity|auto].
Qed.
Lemma done_stop (s s' : @net Q S) l id : nstep t s l s' -> n_done s' id = true -> n_done s id = true \/ l = LStop id.
Proof.
  intros St E. destruct St as [i sends k e H1 H2 H3 H4|i sends H1 H2 H3|H1|u d e r ok H1|d sources sends e q H1 H2 H3 H4|d sources e q H1 H2 H3 H4|d sources o e H1 H2 H3]; try (left; exact E).
  - cbn in E. unfold upd in E. destruct (seqb i id) eqn:W; [apply seqb_eq in W; subst; auto|auto].
  - left. destruct ok; exact E.
Qed.

Lemma done_mono (s s' : @net Q S) l id : nstep t s l s' -> n_done s id = true -> n_done s' id = true.
Proof.
  intros St E. destruct St as [i sends k e H1 H2 H3 H4|i sends H1 H2 H3|H1|u d e r ok H1|d sources sends e q H1 H2 H3 H4|d sources e q H1 H2 H3 H4|d sources o e H1 H2 H3]; try exact E.
  - cbn. unfold upd. destruct (seqb i id); [reflexivity|exact E].
  - destruct ok; exact E.
Qed.

(** ** what holds throughout *)
Definition past (p : @process Q S) (done : list chore) : Prop :=
  (forall th, In (Await th) done -> ended (p_net p) th /\ p_crashed p th = false) /\
  (forall id, p_told p id = true -> In (Tell id) done) /\ (forall id, In (Tell id) done -> p_told p id = true).
Record pinv (tr : list plabel) (p : @process Q S) : Prop := {
  pi_net : nrun proc st0 fint t (net_trace tr) (p_net p);
  pi_crash : forall th, p_crashed p th = true -> ~ ended (p_net p) th /\ In (PCrash th) tr;
  pi_done : forall id, n_done (p_net p) id = true -> p_told p id = true;
  pi_main : match p_main p with
            | Serving => past p []
            | Stopping rest => exists done, work = done ++ rest /\ past p done
            | Panicked => exists done th rest, work = done ++ Await th :: rest /\ past p done /\ p_crashed p th = true
            end;
}.
Lemma past_net p s' l done : nstep t (p_net p) l s' -> past p done -> past (set_net s' p) done.
Proof.
  intros St (A & B & C). split; [|split; [exact B|exact C]]. intros th H. destruct (A th H) as [A1 A2]. split; [|exact A2]. exact (ended_step _ _ _ _ St A1).
Qed.
Lemma past_crash p th done : ~ ended (p_net p) th -> past p done ->
  past (mkProcess (p_net p) (p_main p) (p_told p) (fun x => if teqb th x then true else p_crashed p x)) done.
Proof.
  intros N (A & B & C). split; [|split; [exact B|exact C]]. intros x H. destruct (A x H) as [A1 A2]. split; [exact A1|]. cbn.
  destruct (teqb th x) eqn:E; [|exact A2]. apply teqb_eq in E. subst. contradiction.
Qed.
Lemma run_inv tr p : prun tr p -> pinv tr p.
Proof.
  induction 1 as [|tr p l p' R I St].
  - split; [constructor|intros th [=]|intros id [=]|]. cbn. split; [intros th []|]. split; [intros id [=]|intros id []].
  - destruct I as [I1 I2 I3 I4].
    destruct St as [l s' L N T C|th L N|M|id r M|th r M E C|th r M C].
    + split.
      * unfold net_trace. rewrite flat_map_app. cbn [flat_map app]. econstructor; [exact I1|exact N].
      * intros th Hc. cbn in Hc. destruct (I2 th Hc) as [E Hin]. split; [|apply in_or_app; auto]. cbn. intros E'.
        destruct (ended_own _ _ _ _ N E') as [E2|A]; [exact (E E2)|]. specialize (C th A). cbn in *. congruence.
      * intros id Hd. cbn in *. destruct (done_stop _ _ _ _ N Hd) as [Hd'| ->]; [exact (I3 id Hd')|]. exact (T id Logic.eq_refl).
      * cbn [set_net p_main]. destruct (p_main p) as [|rest|].
        -- exact (past_net _ _ _ _ N I4).
        -- destruct I4 as (done & E & P). exists done. split; [exact E|exact (past_net _ _ _ _ N P)].
        -- destruct I4 as (done & th & rest & E & P & X). exists done, th, rest. split; [exact E|]. split; [exact (past_net _ _ _ _ N P)|exact X].
    + split.
      * unfold net_trace. rewrite flat_map_app. cbn [flat_map]. rewrite app_nil_r. exact I1.
      * intros x Hc. cbn in *. destruct (teqb th x) eqn:E; [apply teqb_eq in E; subst; split; [exact N|apply in_or_app; right; left; reflexivity]|].
        destruct (I2 x Hc) as [A B]. split; [exact A|apply in_or_app; auto].
      * exact I3.
      * cbn [p_main]. destruct (p_main p) as [|rest|] eqn:M.
        -- rewrite <- M. exact (past_crash _ _ _ N I4).
        -- destruct I4 as (done & E & P). exists done. split; [exact E|]. rewrite <- M. exact (past_crash _ _ _ N P).
        -- destruct L as [_ L]. congruence.
    + split.
      * unfold net_trace. rewrite flat_map_app. cbn [flat_map]. rewrite app_nil_r. exact I1.
      * intros x Hc. destruct (I2 x Hc) as [A B]. split; [exact A|apply in_or_app; auto].
      * exact I3.
      * cbn. rewrite M in I4. exists []. split; [reflexivity|exact I4].
    + rewrite M in I4. destruct I4 as (done & E & P1 & P2 & P3). split.
      * unfold net_trace. rewrite flat_map_app. cbn [flat_map]. rewrite app_nil_r. exact I1.
      * intros x Hc. destruct (I2 x Hc) as [A B]. split; [exact A|apply in_or_app; auto].
      * intros i Hd. cbn in *. destruct (seqb id i); [reflexivity|exact (I3 i Hd)].
      * cbn. exists (done ++ [Tell id]). split; [rewrite <- app_assoc; exact E|]. split; [|split].
        -- intros th Hin. apply in_app_or in Hin as [Hin|[Hin|[]]]; [exact (P1 th Hin)|discriminate].
        -- intros i Ht. cbn in Ht. destruct (seqb id i) eqn:W; [apply seqb_eq in W; subst; apply in_or_app; right; left; reflexivity|apply in_or_app; left; exact (P2 i Ht)].
        -- intros i Hin. cbn. destruct (seqb id i) eqn:W; [reflexivity|]. apply in_app_or in Hin as [Hin|[Hin|[]]]; [exact (P3 i Hin)|].
           injection Hin as ->. assert (seqb i i = true) by (apply seqb_eq; reflexivity). congruence.
    + rewrite M in I4. destruct I4 as (done & Ew & P1 & P2 & P3). split.
      * unfold net_trace. rewrite flat_map_app. cbn [flat_map]. rewrite app_nil_r. exact I1.
      * intros x Hc. destruct (I2 x Hc) as [A B]. split; [exact A|apply in_or_app; auto].
      * exact I3.
      * cbn. exists (done ++ [Await th]). split; [rewrite <- app_assoc; exact Ew|]. split; [|split].
        -- intros x Hin. apply in_app_or in Hin as [Hin|[Hin|[]]]; [exact (P1 x Hin)|]. injection Hin as <-. auto.
        -- intros i Ht. apply in_or_app. left. exact (P2 i Ht).
        -- intros i Hin. apply in_app_or in Hin as [Hin|[Hin|[]]]; [exact (P3 i Hin)|discriminate].
    + rewrite M in I4. destruct I4 as (done & Ew & P). split.
      * unfold net_trace. rewrite flat_map_app. cbn [flat_map]. rewrite app_nil_r. exact I1.
      * intros x Hc. destruct (I2 x Hc) as [A B]. split; [exact A|apply in_or_app; auto].
      * exact I3.
      * cbn. exists done, th, r. auto.
Qed.
Lemma returned_all tr p : prun tr p -> returned p -> forall th, In (Await th) work -> ended (p_net p) th /\ p_crashed p th = false.
Proof.
  intros R E th Hin. assert (I := pi_main _ _ (run_inv _ _ R)). unfold returned in E. rewrite E in I. destruct I as (done & W & P & _).
  rewrite app_nil_r in W. subst. apply P. exact Hin.
Qed.
Lemma returned_stays p a p' : returned p -> ~ pstep p a p'.
Proof. unfold returned. intros E St. destruct St as [l s' L N T C|th L N|M|id r M|th r M X C|th r M C]; try congruence; destruct L; congruence. Qed.
End Main.

Lemma await_in so ko fo th : In (Await th) (chores so ko fo) <->
  match th with TSource id => In id so | TSink id => In id ko | TFilter id => In id fo end.
Proof.
  unfold chores. split.
  - intros H. apply in_app_or in H as [H|H].
    + apply in_flat_map in H as (id & Hin & [H|[H|[]]]); [discriminate|]. injection H as <-. exact Hin.
    + apply in_app_or in H as [H|H]; apply in_map_iff in H as (id & H & Hin); injection H as <-; exact Hin.
  - intros H. apply in_or_app. destruct th as [id|id|id].
    + left. apply in_flat_map. exists id. split; [exact H|right; left; reflexivity].
    + right. apply in_or_app. left. apply in_map_iff. eauto.
    + right. apply in_or_app. right. apply in_map_iff. eauto.
Qed.
Lemma tell_in so ko fo id : In (Tell id) (chores so ko fo) <-> In id so.
Proof.
  unfold chores. split.
  - intros H. apply in_app_or in H as [H|H].
    + apply in_flat_map in H as (i & Hin & [H|[H|[]]]); [injection H as <-; exact Hin|discriminate].
    + apply in_app_or in H as [H|H]; apply in_map_iff in H as (i & H & Hin); discriminate.
  - intros H. apply in_or_app. left. apply in_flat_map. exists id. split; [exact H|left; reflexivity].
Qed.
(** what is told later is told when the earlier ones are past *)
Lemma told_after l1 a l2 ko fo done rest b : NoDup (l1 ++ a :: l2) -> In b l2 -> chores (l1 ++ a :: l2) ko fo = done ++ rest -> In (Tell b) done ->
  In (Await (TSource a)) done.
Proof.
  intros Nd Hb E Ht. unfold chores in E. rewrite flat_map_app in E. cbn [flat_map] in E.
  set (X := flat_map (fun id => [Tell id; Await (TSource id)]) l1 ++ [Tell a; Await (TSource a)]).
  assert (E2 : X ++ (flat_map (fun id => [Tell id; Await (TSource id)]) l2 ++ map (fun id => Await (TSink id)) ko ++ map (fun id => Await (TFilter id)) fo) = done ++ rest).
  { rewrite <- E. unfold X. rewrite <- !app_assoc. reflexivity. }
  assert (N : ~ In (Tell b) X).
  { unfold X. intros H. apply in_app_or in H as [H|H].
    - apply in_flat_map in H as (i & Hin & [H|[H|[]]]); [|discriminate]. injection H as ->.
      apply (NoDup_app_dis _ _ b Nd); [right; exact Hb|exact Hin].
    - destruct H as [H|[H|[]]]; [|discriminate]. injection H as ->. apply NoDup_remove_2 in Nd. apply Nd. apply in_or_app. auto. }
  apply app_eq_app in E2 as (y & [[E1 _]|[E1 _]]).
  - exfalso. apply N. rewrite E1. apply in_or_app. auto.
  - rewrite E1. apply in_or_app. left. unfold X. apply in_or_app. right. right. left. reflexivity.
Qed.

(** ** executions for ever *)
Section For_ever.
Context `{Q : QLib} {S : Type}.
Variable proc : string -> S -> event -> S * list event * option event.
Variable st0 : string -> S.
Variable fint : string -> option N.
Variable g : config.
Variable t : started.
Hypothesis Hd : distinct_ids g.
Hypothesis Hw : wire g = Going t.
Variables so ko fo : list string.
Hypothesis Hm : main_holds g so ko fo.
Let work := chores so ko fo.
Variable x : nat -> @process Q S.
Variable l : nat -> option (@plabel Q).
Hypothesis Hx : pexecution proc st0 fint t work x l.
Hypothesis F : pfair g x l.
Hypothesis Nc : no_crash l.
Hypothesis Kp : pmarkers_kept l.
Hypothesis Ts : told_stops x.

Fixpoint pbefore (i : nat) : list (@plabel Q) :=
  match i with 0 => [] | Datatypes.S i => pbefore i ++ match l i with Some a => [a] | None => [] end end.
Lemma prun_before i : prun proc st0 fint t work (pbefore i) (x i).
Proof.
  destruct Hx as [H0 Hs]. induction i as [|i IH]; [cbn; rewrite H0; constructor|]. cbn [pbefore]. specialize (Hs i). replace (Datatypes.S i) with (i + 1) by lia.
  destruct (l i) as [a|]; [econstructor; eassumption|]. rewrite app_nil_r, Hs. exact IH.
Qed.
Lemma none_crashed i th : p_crashed (x i) th = false.
Proof.
  destruct (p_crashed (x i) th) eqn:E; [|reflexivity]. exfalso.
  destruct (pi_crash _ _ _ _ _ _ _ (run_inv _ _ _ _ _ _ _ (prun_before i)) th E) as [_ Hin].
  induction i as [|i IH] in Hin |- *; [exact Hin|]. cbn [pbefore] in Hin. apply in_app_or in Hin as [Hin|Hin]; [exact (IH Hin)|].
  destruct (l i) as [a|] eqn:La; [|exact Hin]. destruct Hin as [->|[]]. exact (Nc i th La).
Qed.
Definition is_returned (p : @process Q S) : bool := match p_main p with Stopping [] => true | _ => false end.
Lemma is_returned_iff p : is_returned p = true <-> returned p.
Proof. unfold is_returned, returned. destruct (p_main p) as [|[|c r]|]; split; intros H; try discriminate; try congruence; reflexivity. Qed.
Lemma returned_next i : returned (x i) -> x (i + 1) = x i.
Proof.
  intros R. destruct Hx as [_ Hs]. specialize (Hs i). destruct (l i) as [a|]; [|exact Hs]. exfalso. exact (returned_stays _ _ _ _ _ _ _ R Hs).
Qed.

(** the network, which after the exit of main only finishes the sends of the timer *)
Definition finish (s : @net Q S) : net :=
  match n_out s Tim with [] => s | (d, e) :: r => set_out Tim r (set_queue d (n_queue s d ++ [e]) s) end.
Fixpoint y (i : nat) : @net Q S :=
  match i with 0 => net0 st0 | Datatypes.S i => if is_returned (x i) then finish (y i) else p_net (x (i + 1)) end.
Definition yl (i : nat) : option (@label Q) :=
  if is_returned (x i) then match n_out (y i) Tim with [] => None | (d, e) :: _ => Some (LCopy Tim d e true) end
  else match l i with Some (PNet a) => Some a | _ => None end.
Lemma y_x i : y i = p_net (x i) \/ (exists k, i = Datatypes.S k /\ returned (x k)).
Proof.
  destruct i as [|i]; [left; cbn; destruct Hx as [-> _]; reflexivity|]. cbn [y]. destruct (is_returned (x i)) eqn:E.
  - right. exists i. apply is_returned_iff in E. auto.
  - left. replace (Datatypes.S i) with (i + 1) by lia. reflexivity.
Qed.
Lemma y_lives i : ~ returned (x i) -> y i = p_net (x i).
Proof.
  intros N. destruct (y_x i) as [E|(k & -> & R)]; [exact E|]. exfalso. apply N. replace (Datatypes.S k) with (k + 1) by lia. rewrite (returned_next k R). exact R.
Qed.
Lemma y_exec : execution proc st0 fint t y yl.
Proof.
  split; [reflexivity|]. intros i. replace (i + 1) with (Datatypes.S i) by lia. unfold yl. cbn [y]. destruct (is_returned (x i)) eqn:E.
  - unfold finish. destruct (n_out (y i) Tim) as [|[d e] r] eqn:O; [reflexivity|]. exact (step_copy proc fint t (y i) Tim d e r true O).
  - assert (N : ~ returned (x i)) by (intros R; apply is_returned_iff in R; congruence). rewrite (y_lives i N).
    destruct Hx as [_ Hs]. specialize (Hs i). destruct (l i) as [a|]; [|rewrite Hs; reflexivity].
    inversion Hs; subst; try reflexivity. assumption.
Qed.
(** everything but the timer is over *)
Definition still (s : @net Q S) : Prop :=
  (forall u, u <> Tim -> n_out s u = []) /\ (forall d, In d (map fst (g_filters g)) -> fn_stopped (n_filter s d) = true) /\
  (forall d, In d (g_sinks g) -> sr_stopped (n_sink s d) = true).
Lemma still_finish s : still s -> still (finish s).
Proof.
  intros (A & B & C). unfold finish. destruct (n_out s Tim) as [|[d e] r]; [split; auto|]. split; [|split; [exact B|exact C]].
  intros u Hu. cbn. unfold upd. destruct (weqb Tim u) eqn:E; [apply weqb_eq in E; congruence|]. exact (A u Hu).
Qed.
Lemma done_others tr (s : @net Q S) : nrun proc st0 fint t tr s -> forall id k, n_done s id = true -> k <> 0 -> n_out s (Src id k) = [].
Proof.
  induction 1 as [|tr s a s' R IH St]; intros id k Hdn Hk; [discriminate|].
  destruct St as [i sends j e H1 H2 H3 H4|i sends H1 H2 H3|H1|u d e r ok H1|d sources sends e q H1 H2 H3 H4|d sources e q H1 H2 H3 H4|d sources o e H1 H2 H3].
  - cbn in *. unfold upd. destruct (weqb (Src i j) (Src id k)) eqn:E; [|auto]. apply weqb_eq in E. injection E as -> ->. congruence.
  - cbn [n_out n_done set_out set_done] in *. unfold upd in *. destruct (weqb (Src i 0) (Src id k)) eqn:E; [apply weqb_eq in E; congruence|].
    destruct (seqb i id) eqn:W; [apply seqb_eq in W; subst; apply H3|auto].
  - cbn. unfold upd. cbn. auto.
  - replace (n_out (set_out u r (if ok then set_queue d (n_queue s d ++ [e]) s else s))) with (upd weqb u r (n_out s)) by (destruct ok; reflexivity).
    assert (Z : n_done s id = true) by (destruct ok; exact Hdn). unfold upd. destruct (weqb u (Src id k)) eqn:E; [|auto]. apply weqb_eq in E. subst.
    rewrite (IH id k Z Hk) in H1. discriminate.
  - cbn in *. unfold upd. cbn. auto.
  - cbn in *. auto.
  - cbn in *. auto.
Qed.
Lemma still_returned i : returned (x i) -> still (p_net (x i)).
Proof.
  intros R. assert (A := returned_all _ _ _ _ _ _ _ (prun_before i) R). assert (N := pi_net _ _ _ _ _ _ _ (run_inv _ _ _ _ _ _ _ (prun_before i))).
  destruct Hm as ((_ & M1) & (_ & M2) & (_ & M3)).
  split; [|split].
  - intros u Hu. destruct (n_out (p_net (x i)) u) as [|[d e] r] eqn:O; [reflexivity|]. exfalso.
    assert (L := i_link _ _ _ _ _ _ (inv_run _ _ _ _ _ _ (wired_wf g t Hd Hw) N) u d). rewrite O in L.
    destruct (mem d (sends_of t u)) eqn:M.
    + destruct u as [id k|id|]; [| |congruence]; cbn [sends_of] in M.
      * destruct (alookup seqb id (t_sources t)) as [sends|] eqn:El; [|discriminate M]. destruct (source_lookup g t Hd Hw _ _ El) as (fw & Hin & _).
        assert (Hs : In id so) by (apply M1; exact (in_map fst _ _ Hin)).
        destruct (A (TSource id) (proj2 (await_in so ko fo (TSource id)) Hs)) as [[D Z] _].
        destruct k as [|k]; [congruence|]. rewrite (done_others _ _ N id (Datatypes.S k) D ltac:(discriminate)) in O. discriminate.
      * destruct (alookup seqb id (t_filters t)) as [[srcs sends]|] eqn:El; [|discriminate M]. destruct (filter_lookup g t Hd Hw _ _ _ El) as (fw & Hin & _).
        assert (Hs : In id fo) by (apply M3; exact (in_map fst _ _ Hin)).
        destruct (A (TFilter id) (proj2 (await_in so ko fo (TFilter id)) Hs)) as [[D Z] _]. congruence.
    + apply app_eq_nil in L as [_ L]. cbn in L. rewrite seqb_refl' in L. discriminate.
  - intros d Hin. apply (A (TFilter d)). apply await_in. apply M3. exact Hin.
  - intros d Hin. apply (A (TSink d)). apply await_in. apply M2. exact Hin.
Qed.
Lemma still_y : forall i, returned (x i) -> still (y i).
Proof.
  induction i as [|i IH]; intros R.
  - assert (E : y 0 = p_net (x 0)) by (cbn; destruct Hx as [-> _]; reflexivity). rewrite E. exact (still_returned 0 R).
  - cbn [y]. destruct (is_returned (x i)) eqn:E.
    + apply still_finish, IH. apply is_returned_iff. exact E.
    + replace (i + 1) with (Datatypes.S i) by lia. exact (still_returned _ R).
Qed.
Lemma returned_later i j : i <= j -> returned (x i) -> x j = x i.
Proof.
  induction 1 as [|j _ IH]; [reflexivity|]. intros R. specialize (IH R). replace (Datatypes.S j) with (j + 1) by lia. rewrite returned_next, IH; [reflexivity|rewrite IH; exact R].
Qed.
Lemma timer_finishes : forall c i, returned (x i) -> n_out (y i) Tim = c -> exists j, i <= j /\ n_out (y j) Tim = [].
Proof.
  induction c as [|[d e] r IH]; intros i R E; [exists i; auto|].
  destruct (IH (Datatypes.S i)) as (j & Hj & O).
  - replace (Datatypes.S i) with (i + 1) by lia. rewrite (returned_next i R). exact R.
  - cbn [y]. rewrite (proj2 (is_returned_iff (x i)) R). unfold finish. rewrite E. reflexivity.
  - exists j. split; [lia|exact O].
Qed.
Lemma yl_lives i a : ~ returned (x i) -> l i = Some (PNet a) -> yl i = Some a.
Proof. intros N E. unfold yl. destruct (is_returned (x i)) eqn:R; [apply is_returned_iff in R; contradiction|]. rewrite E. reflexivity. Qed.
Lemma returned_dec i : returned (x i) \/ ~ returned (x i).
Proof. destruct (is_returned (x i)) eqn:R; [left; apply is_returned_iff; exact R|right; intros H; apply is_returned_iff in H; congruence]. Qed.
Lemma y_fair : fair g y yl.
Proof.
  split.
  - intros u.
    assert (G : forall i, returned (x i) -> exists j, i <= j /\ (n_out (y j) u = [] \/ exists d e ok, yl j = Some (LCopy u d e ok))).
    { intros i R. destruct (weqb u Tim) eqn:E.
      - apply weqb_eq in E. subst. destruct (timer_finishes _ i R Logic.eq_refl) as (j & Hj & O). eauto.
      - exists i. split; [lia|]. left. destruct (still_y i R) as (A & _). apply A. intros ->. rewrite weqb_refl in E. discriminate. }
    intros i. destruct (pfair_send _ _ _ F u i) as (j & Hj & C). destruct (returned_dec j) as [R|N].
    + destruct (G j R) as (k & Hk & H). exists k. split; [lia|exact H].
    + exists j. split; [exact Hj|]. rewrite (y_lives j N). destruct C as [C|[C|(d & e & ok & C)]]; [contradiction|auto|]. right. exists d, e, ok. exact (yl_lives j _ N C).
  - intros d Hin i. destruct (pfair_filter _ _ _ F d Hin i) as (j & Hj & C). exists j. split; [exact Hj|]. destruct (returned_dec j) as [R|N].
    + left. right. right. apply (still_y j R). exact Hin.
    + rewrite (y_lives j N). destruct C as [C|[C|(e & C)]]; [contradiction|auto|]. right. exists e. exact (yl_lives j _ N C).
  - intros d Hin i. destruct (pfair_sink _ _ _ F d Hin i) as (j & Hj & C). exists j. split; [exact Hj|]. destruct (returned_dec j) as [R|N].
    + left. right. right. apply (still_y j R). exact Hin.
    + rewrite (y_lives j N). destruct C as [C|[C|(e & C)]]; [contradiction|auto|]. right. exists e. exact (yl_lives j _ N C).
  - intros d Hin i. destruct (pfair_valve _ _ _ F d Hin i) as (j & Hj & C). exists j. split; [exact Hj|]. destruct (returned_dec j) as [R|N].
    + right. left. apply (still_y j R). exact Hin.
    + rewrite (y_lives j N). destruct C as [C|[C|[C|C]]]; [contradiction|auto|auto|]. right. right. exact (yl_lives j _ N C).
Qed.
Lemma y_kept : markers_kept yl.
Proof.
  intros i u d. unfold yl. destruct (is_returned (x i)); [destruct (n_out (y i) Tim) as [|[d' e] r]; discriminate|].
  intros H. destruct (l i) as [[a| | | | |]|] eqn:E; try discriminate. injection H as ->. exact (Kp i u d E).
Qed.

(** *** main goes on *)
Lemma main_next i c r : p_main (x i) = Stopping (c :: r) -> p_main (x (i + 1)) = Stopping (c :: r) \/ p_main (x (i + 1)) = Stopping r.
Proof.
  intros E. destruct Hx as [_ Hs]. specialize (Hs i). destruct (l i) as [a|]; [|left; rewrite Hs; exact E].
  inversion Hs as [b s' L N T C Eb Ep|th L N Eb Ep|M Eb Ep|id r' M Eb Ep|th r' M X C Eb Ep|th r' M C Eb Ep]; cbn [set_net set_main p_main]; auto.
  - congruence.
  - right. congruence.
  - right. congruence.
  - rewrite none_crashed in C. discriminate.
Qed.
Lemma main_until i c r : p_main (x i) = Stopping (c :: r) -> forall n,
  p_main (x (i + n)) = Stopping (c :: r) \/ exists k, i <= k /\ p_main (x k) = Stopping r.
Proof.
  intros E. induction n as [|n [IH|IH]]; [left; rewrite Nat.add_0_r; exact E| |right; exact IH].
  replace (i + Datatypes.S n) with (i + n + 1) by lia. destruct (main_next _ _ _ IH) as [H|H]; [left; exact H|]. right. exists (i + n + 1). split; [lia|exact H].
Qed.
Lemma main_moves i c r : p_main (x i) = Stopping (c :: r) ->
  (forall th, c = Await th -> ended (p_net (x i)) th) -> exists j, i <= j /\ p_main (x j) = Stopping r.
Proof.
  intros E En. destruct (pfair_main _ _ _ F i) as (j & Hj & C). destruct (main_until i c r E (j - i)) as [H|H]; [|exact H].
  replace (i + (j - i)) with j in H by lia. destruct C as [C|[C|(a & La & C)]].
  - unfold returned in C. congruence.
  - exfalso. destruct C as [C|(th & r' & C & N)]; [congruence|]. rewrite H in C. injection C as -> <-. apply N. specialize (En th Logic.eq_refl). clear - Hj En Hx.
    induction Hj as [|j _ IH]; [exact En|]. replace (Datatypes.S j) with (j + 1) by lia. destruct Hx as [_ Hs]. specialize (Hs j). destruct (l j) as [a|]; [|rewrite Hs; exact IH].
    inversion Hs; subst; try exact IH. cbn. eapply ended_step; eassumption.
  - exists (j + 1). split; [lia|]. destruct Hx as [_ Hs]. specialize (Hs j). rewrite La in Hs.
    inversion Hs as [b s' L N T D Eb Ep|th L N Eb Ep|M Eb Ep|id r' M Eb Ep|th r' M X D Eb Ep|th r' M D Eb Ep]; subst a; try contradiction; cbn [set_main p_main].
    + congruence.
    + congruence.
    + rewrite none_crashed in D. discriminate.
Qed.
(** main gets past a thread that ends in [y] *)
Lemma main_past i th r : p_main (x i) = Stopping (Await th :: r) -> (exists j, i <= j /\ ended (y j) th) -> exists j, i <= j /\ p_main (x j) = Stopping r.
Proof.
  intros E (j & Hj & En). destruct (main_until i _ _ E (j - i)) as [H|H]; [|exact H]. replace (i + (j - i)) with j in H by lia.
  assert (N : ~ returned (x j)) by (unfold returned; congruence). rewrite (y_lives j N) in En.
  destruct (main_moves j _ _ H) as (k & Hk & R); [intros th' [= <-]; exact En|]. exists k. split; [lia|exact R].
Qed.
Lemma ended_later i j th : i <= j -> ended (y i) th -> ended (y j) th.
Proof.
  induction 1 as [|j _ IH]; [auto|]. intros E. specialize (IH E). destruct y_exec as [_ Hs]. specialize (Hs j). replace (Datatypes.S j) with (j + 1) by lia.
  destruct (yl j) as [a|]; [|rewrite Hs; exact IH]. eapply ended_step; eassumption.
Qed.
Lemma y_done j id : n_done (p_net (x j)) id = true -> n_done (y j) id = true.
Proof.
  intros D. induction j as [|j IH] in D |- *; [destruct Hx as [E _]; rewrite E in D; discriminate|]. cbn [y]. destruct (is_returned (x j)) eqn:R.
  - apply is_returned_iff in R. replace (Datatypes.S j) with (j + 1) in D by lia. rewrite (returned_next j R) in D. specialize (IH D).
    unfold finish. destruct (n_out (y j) Tim) as [|[d e] r]; exact IH.
  - replace (j + 1) with (Datatypes.S j) by lia. exact D.
Qed.
(** the sources, one after the other *)
Lemma sources_past : forall l2 rest i, p_main (x i) = Stopping (flat_map (fun id => [Tell id; Await (TSource id)]) l2 ++ rest) ->
  exists j, i <= j /\ p_main (x j) = Stopping rest.
Proof.
  induction l2 as [|a l2 IH]; intros rest i E; [exists i; auto|]. cbn [flat_map app] in E.
  destruct (main_moves i _ _ E) as (j & Hj & E1); [discriminate|].
  assert (T : p_told (x j) a = true).
  { assert (I := pi_main _ _ _ _ _ _ _ (run_inv _ _ _ _ _ _ _ (prun_before j))). rewrite E1 in I. destruct I as (done & W & P1 & P2 & P3).
    assert (I0 := pi_main _ _ _ _ _ _ _ (run_inv _ _ _ _ _ _ _ (prun_before i))). rewrite E in I0. destruct I0 as (done0 & W0 & _).
    apply P3. rewrite W in W0. assert (D : done = done0 ++ [Tell a]).
    { apply (app_inv_tail (Await (TSource a) :: flat_map (fun id => [Tell id; Await (TSource id)]) l2 ++ rest)). rewrite <- app_assoc. exact W0. }
    rewrite D. apply in_or_app. right. left. reflexivity. }
  destruct (Ts j a T) as (k & D).
  destruct (main_past j _ _ E1) as (m & Hmm & E2).
  { apply y_done in D. destruct (out_drains proc st0 fint g t y yl y_exec y_fair (Src a 0) _ (j + k) Logic.eq_refl) as (n & Hn & O). exists n. split; [lia|]. split; [|exact O].
    clear - D Hn Hx Hw Hd. assert (G : forall p q, p <= q -> n_done (y p) a = true -> n_done (y q) a = true).
    { induction 1 as [|q _ IHq]; [auto|]. intros Z. specialize (IHq Z). destruct y_exec as [_ Hs]. specialize (Hs q). replace (Datatypes.S q) with (q + 1) by lia.
      destruct (yl q) as [b|]; [|rewrite Hs; exact IHq]. eapply done_mono; eassumption. }
    apply (G k n); [lia|exact D]. }
  destruct (IH rest m E2) as (n & Hn & E3). exists n. split; [lia|exact E3].
Qed.
Lemma list_past ths rest : (forall th, In th ths -> exists i, ended (y i) th) -> forall i, p_main (x i) = Stopping (map Await ths ++ rest) ->
  exists j, i <= j /\ p_main (x j) = Stopping rest.
Proof.
  induction ths as [|th ths IH]; intros En i E; [exists i; auto|]. cbn [map app] in E.
  destruct (main_past i _ _ E) as (j & Hj & E1).
  { destruct (En th (or_introl Logic.eq_refl)) as (k & Hk). exists (i + k). split; [lia|]. apply (ended_later k); [lia|exact Hk]. }
  destruct (IH (fun z Hz => En z (or_intror Hz)) j E1) as (k & Hk & E2). exists k. split; [lia|exact E2].
Qed.
Lemma y_done_back j id : n_done (p_net (x j)) id = true -> exists k, n_done (y k) id = true.
Proof. intros H. exists j. apply y_done. exact H. Qed.

Hypothesis Sg : signal_comes l.
Hypothesis Fd : forall id, In id (g_sinks g) \/ In id (map fst (g_filters g)) -> fed g id.
Lemma main_returns : exists i, returned (x i).
Proof.
  destruct Sg as (i & Li). destruct Hm as ((_ & M1) & (_ & M2) & (_ & M3)).
  assert (E : p_main (x (i + 1)) = Stopping work).
  { destruct Hx as [_ Hs]. specialize (Hs i). rewrite Li in Hs. inversion Hs. reflexivity. }
  unfold work, chores in E. destruct (sources_past _ _ _ E) as (j & Hj & E1).
  (* every source has stopped *)
  assert (Z : sources_stop g y).
  { intros id Hin. exists j. apply y_done. apply M1 in Hin.
    assert (I := pi_main _ _ _ _ _ _ _ (run_inv _ _ _ _ _ _ _ (prun_before j))). rewrite E1 in I. destruct I as (done & W & P1 & _).
    unfold work, chores in W. apply app_inv_tail in W. apply (P1 (TSource id)). rewrite <- W. apply in_flat_map. exists id. split; [exact Hin|right; left; reflexivity]. }
  assert (Ov : forall id, fed g id -> exists k, over g (y k) id).
  { intros id Hf. destruct (fed_told proc st0 fint g t Hd Hw y yl y_exec y_fair y_kept Z id Hf) as (k & Ho & _). eauto. }
  rewrite <- (map_map TSink Await ko), <- (map_map TFilter Await fo) in E1.
  destruct (list_past (map TSink ko) (map Await (map TFilter fo))) with (i := j) as (k & Hk & E2); [|exact E1|].
  { intros th Hin. apply in_map_iff in Hin as (d & <- & Hin). apply M2 in Hin. destruct (Ov d (Fd d (or_introl Hin))) as (k & _ & _ & O). exists k. exact (O Hin). }
  rewrite <- (app_nil_r (map Await (map TFilter fo))) in E2.
  destruct (list_past (map TFilter fo) []) with (i := k) as (n & Hn & E3); [|exact E2|].
  { intros th Hin. apply in_map_iff in Hin as (d & <- & Hin). apply M3 in Hin. destruct (Ov d (Fd d (or_intror Hin))) as (n & Ho).
    destruct (out_drains proc st0 fint g t y yl y_exec y_fair (Fil d) _ n Logic.eq_refl) as (m & Hmn & O). exists m. split; [|exact O].
    destruct (over_later proc st0 fint g t y yl y_exec n m d Hmn Ho) as (_ & A & _). exact (A Hin). }
  exists n. exact E3.
Qed.
End For_ever.
