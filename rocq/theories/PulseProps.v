(** * C130, continued: pulses that go through filters. *)
From Verif Require Import Base BaseFacts TelemetryModel FlowModel FlowSpec FlowProofs FiltersModel QExample TelemetryProps FlowProps TopologyModel TopologySpec TopologyProofs TopologyProps NetworkModel NetworkSpec NetworkProofs NetworkProps LiveSpec LiveProofs LiveProps PulseSpec PulseProofs.
From Coq Require Import Lia.
Open Scope string_scope. Open Scope list_scope. Open Scope nat_scope.

(** A running sink that a source has a way to, be it through filters, is flushed for every pulse its interval divides, if
    all filters before it hand pulses on, none of the queues before it refuses one and nothing on that way has stopped. *)
Theorem C130_flushed_through_filters : forall (Q : QLib) (S : Type) proc (st0 : string -> S) fint g t x l, distinct_ids g -> wire g = Going t -> execution proc st0 fint t x l -> fair g x l -> timer_goes l ->
  forall u via d k n, In u (map fst (g_natives g ++ g_sources g)) -> way g u via d -> In d (g_sinks g) -> handed proc st0 g d -> pulses_kept g l d ->
  fint d = Some k -> (k = 0 \/ n mod k = 0)%N -> (0 < n < 2 ^ 64)%N ->
  exists i, (exists v, In v (via ++ [d]) /\ halted g (x i) v) \/ In n (timer_flushes (sr_calls (n_sink (x i) d))).
Proof.
  intros Q S proc st0 fint g t x l Hd Hw Hx F T u via d k n Hu Hwy Hk Hh K Hfi Hdue Hn.
  destruct (flushed_way proc st0 fint g t Hd Hw d Hh x l Hx F K k n u via Hu Hwy Hk T Hfi) with (i := 0) as (j & _ & H); [|exact Hn|eauto].
  apply orb_true_iff. destruct Hdue as [Hz|Hz]; [left|right]; apply N.eqb_eq; exact Hz.
Qed.
(** No sink is flushed for a pulse that has not come. *)
Theorem C130_not_ahead : forall (Q : QLib) (S : Type) proc (st0 : string -> S) fint g t x l, distinct_ids g -> wire g = Going t -> execution proc st0 fint t x l ->
  forall d i n, In d (g_sinks g) -> handed proc st0 g d -> pulses_kept g l d -> In n (timer_flushes (sr_calls (n_sink (x i) d))) -> (n <= N.of_nat (pulses (before l i)))%N.
Proof. intros Q S proc st0 fint g t x l Hd Hw Hx d i n Hk Hh K. exact (flush_ahead proc st0 fint g t Hd Hw d Hh x l Hx K i n Hk). Qed.

(** The filters of src/filter that do so: the delay filter, the flush boundary filter, and a programmable filter whose
    script's tick never fails.  (The JSON encoder hands pulses on too, C42; it is not a [filt] here.) *)
Theorem C130_filters : forall (Q : QLib),
  (forall tol clock, hands_pulses (delay_filt tol clock) (0, dc_zero)) /\
  (forall tol, hands_pulses (fb_filt tol) []) /\
  (forall sc path now st, (forall st, exists st' ls ms, sc_call sc st "tick" [] [] = (st', LDone ls ms)) -> hands_pulses (prog_filt sc path now) (mkProg st 0%N)).
Proof.
  intros Q. split; [|split].
  - intros tol clock. exists (fun _ => True), (fun _ => 0%N). split; [exact Logic.I|]. split; [reflexivity|]. intros [k c] e _ H. cbn [f_process delay_filt].
    destruct e; try discriminate H; cbn [delay_process]; try (destruct (delay_accepts _ _ _)); cbn [fst snd]; (split; [exact Logic.I|]); (split; [intros ? [=]|]); auto.
  - intros tol. exists (Forall (fun h => flush_indices (h_events h) = [])), (fun _ => 0%N). split; [constructor|]. split; [reflexivity|]. intros st e Hg H. cbn [f_process fb_filt].
    unfold fb_process. destruct (is_timer_flush e) eqn:Ef.
    + assert (R : forall hs, Forall (fun h => flush_indices (h_events h) = []) hs -> flush_indices (fst (fb_release tol hs)) = [] /\ Forall (fun h => flush_indices (h_events h) = []) (snd (fb_release tol hs))).
      { induction 1 as [|h hs Hh _ [I1 I2]]; [split; [reflexivity|constructor]|]. cbn [fb_release]. destruct (fb_release tol hs) as [o k]. cbn [fst snd] in *.
        destruct (tol <? h_age h); cbn [fst snd]; [rewrite flush_indices_app, Hh, I1; auto|auto]. }
      destruct (R (map (fun h => mkHold (h_ts h) (h_age h + 1) (h_events h)) st)) as [R1 R2]; [apply Forall_map; exact Hg|].
      destruct (fb_release tol _) as [o k]. cbn [fst snd] in *. split; [exact R2|]. split; [intros ? [=]|]. destruct e; try discriminate Ef.
      split; [reflexivity|]. split; [auto|]. left. rewrite flush_indices_app, R1. reflexivity.
    + assert (He : flush_indices [e] = []) by (destruct e; try discriminate Ef; reflexivity).
      assert (Fin : forall st', Forall (fun h => flush_indices (h_events h) = []) st' ->
        Forall (fun h => flush_indices (h_events h) = []) st' /\ (forall fe : event, None = Some fe -> flush_indices [fe] = []) /\
        match e with ETimerFlush n => @None event = None /\ (0%N = 0%N \/ 0%N = n) /\ (flush_indices [] = [n] \/ flush_indices [] = [] /\ (n <= 0)%N) | _ => 0%N = 0%N /\ flush_indices [] = [] end).
      { intros st' Hs. split; [exact Hs|]. split; [intros ? [=]|]. destruct e; try discriminate Ef; auto. }
      destruct (e_timestamp e) as [ts|]; [|exact (Fin st Hg)].
      destruct (fb_search st ts) as [i|i]; cbn [fst snd]; apply Fin.
      * apply Forall_update_at; [|exact Hg]. intros h Hh. cbn [h_events]. rewrite flush_indices_app, Hh, He. reflexivity.
      * apply Forall_insert_at; [exact He|exact Hg].
  - intros sc path now st Ht. exists (fun _ => True), pg_last. split; [exact Logic.I|]. split; [reflexivity|]. intros p e _ H.
    assert (M : forall a b, flush_indices (map ELog a ++ map ETelemetry b) = []).
    { intros a b. rewrite flush_indices_app. replace (flush_indices (map ELog a)) with (@nil N) by (induction a; auto). induction b; auto. }
    cbn [f_process prog_filt]. destruct e as [m|l|i| |r]; try discriminate H; cbn [prog_process].
    + unfold run_lua. destruct (sc_call sc _ _ _ _) as [st' [| |ls ms]]; (split; [exact Logic.I|]); (split; [intros ? [=]; subst; reflexivity|]); split; auto; first [reflexivity|apply M].
    + unfold run_lua. destruct (sc_call sc _ _ _ _) as [st' [| |ls ms]]; (split; [exact Logic.I|]); (split; [intros ? [=]; subst; reflexivity|]); split; auto; first [reflexivity|apply M].
    + destruct (N.leb_spec i (pg_last p)) as [Hi|Hi]; [split; [exact Logic.I|]; split; [intros ? [=]|auto]|].
      unfold run_lua. destruct (Ht (pg_lua p)) as (st' & ls & ms & ->). split; [exact Logic.I|]. split; [intros ? [=]|]. split; [reflexivity|]. split; [auto|].
      left. rewrite flush_indices_app, M. reflexivity.
    + split; [exact Logic.I|]. split; [intros ? [=]|]. auto.
Qed.

(** ** The claim for all filters is refuted: a source, a programmable filter whose script has no tick, a sink.  However
    many pulses come (below 2^64), the sink is not flushed once, with nothing left to be done. *)
Definition xbare : script := mkScript unit (fun s _ _ _ => (s, LNoFunction)).
Notation xbare_proc := (fun _ : string => @prog_process xQ xbare "p" 0).
Notation xbare0 := (fun _ : string => @mkProg xQ xbare tt 0%N).
Notation xfail := (@failure_event xQ "p" "tick" 0).
Definition xidle (s : @net xQ (@prog xQ xbare)) : Prop :=
  (forall u, n_out s u = []) /\ (forall v, n_queue s v = []) /\ fn_stopped (n_filter s "filters.f") = false /\ pg_last (fn_state (n_filter s "filters.f")) = 0%N /\
  sr_queue (n_sink s "sinks.null") = [] /\ sr_hand (n_sink s "sinks.null") = None /\ sr_stopped (n_sink s "sinks.null") = false /\
  timer_flushes (sr_calls (n_sink s "sinks.null")) = [].
Lemma xidle_next tr s : nrun xbare_proc xbare0 (fun _ => Some 1%N) xrow_started tr s -> xidle s -> no_drops tr -> n_idx s = N.of_nat (pulses tr) -> (N.of_nat (pulses tr) + 1 < 2 ^ 64)%N ->
  exists tr' s', nrun xbare_proc xbare0 (fun _ => Some 1%N) xrow_started tr' s' /\ xidle s' /\ no_drops tr' /\ n_idx s' = N.of_nat (pulses tr') /\ pulses tr' = pulses tr + 1.
Proof.
  intros R (O & Eq & Fs & Fl & Es & Eh & Est & Ec) Nd Ei Hb. set (i := (n_idx s + 1)%N).
  assert (Hi : ((n_idx s + 1) mod 2 ^ 64 = i)%N) by (apply N.mod_small; unfold i; rewrite Ei; exact Hb).
  assert (R1 := run_step _ _ _ _ _ _ _ _ R (step_pulse xbare_proc (fun _ => Some 1%N) xrow_started s (O Tim))). rewrite Hi in R1. cbn [copies t_timer xrow_started map app] in R1.
  eapply run_step in R1; [|apply (step_copy _ _ _ _ Tim "filters.f" (ETimerFlush i) [] true); reflexivity].
  eapply run_step in R1; [|apply (step_filter _ _ _ _ "filters.f" ["sources.a"] ["sinks.null"] (ETimerFlush i) []); [reflexivity|exact (O _)|exact Fs|cbn; rewrite Eq; reflexivity]].
  cbn [set_out set_queue set_idx n_filter n_out n_queue n_sink n_done n_idx fst snd] in R1.
  assert (Ft : filter_turn xbare_proc "filters.f" (List.length ["sources.a"]) (n_filter s "filters.f") (ETimerFlush i) =
    (mkFnode (@mkProg xQ xbare tt 0%N) (fn_buf (n_filter s "filters.f") ++ [ETimerFlush i]) (fn_shut (n_filter s "filters.f")) false, [xfail])).
  { unfold filter_turn. cbn [f_run filter_of f_process prog_process]. rewrite Fl. replace (i <=? 0)%N with false by (symmetry; apply N.leb_gt; unfold i; lia).
    destruct (fn_state (n_filter s "filters.f")) as [[] la]. cbn in Fl. subst la. reflexivity. }
  rewrite Ft in R1. cbn [fst snd flat_map copies map app] in R1.
  eapply run_step in R1; [|apply (step_copy _ _ _ _ (Fil "filters.f") "sinks.null" xfail [] true); reflexivity].
  eapply run_step in R1; [|apply (step_sink _ _ _ _ "sinks.null" ["filters.f"] xfail []); [reflexivity|exact Est|exact Eh|cbn; rewrite Eq; reflexivity]].
  cbn [set_out set_filter set_queue set_sink set_idx n_filter n_out n_queue n_sink n_done n_idx fst snd] in R1.
  assert (Ks : sink_step (List.length ["filters.f"]) (Some 1%N) (sink_step (List.length ["filters.f"]) (Some 1%N) (n_sink s "sinks.null") (Arrive xfail)) FlowModel.Poll =
     mkSinkRun [] (Some xfail) (sr_last (n_sink s "sinks.null")) (sr_shut (n_sink s "sinks.null")) false (sr_calls (n_sink s "sinks.null"))).
  { unfold sink_step. cbn [sr_stopped sr_hand sr_queue sr_last sr_shut sr_calls]. rewrite Est, Eh, Es. reflexivity. }
  rewrite Ks in R1.
  eapply run_step in R1; [|apply (step_valve _ _ _ _ "sinks.null" ["filters.f"] true xfail); reflexivity].
  cbn [set_out set_filter set_queue set_sink set_idx n_filter n_out n_queue n_sink n_done n_idx fst snd] in R1.
  match type of R1 with nrun _ _ _ _ ?tr1 ?s1 => exists tr1, s1 end. split; [exact R1|]. clear R1.
  assert (P : forall a, pulses (((((((tr ++ [LPulse]) ++ [LCopy Tim "filters.f" (ETimerFlush i) true]) ++ [LPoll "filters.f" (ETimerFlush i)]) ++ [LCopy (Fil "filters.f") "sinks.null" xfail true]) ++ [LPoll "sinks.null" xfail]) ++ [LValve "sinks.null" a])) = pulses tr + 1).
  { intros a. unfold pulses. rewrite !filter_app, !app_length. cbn. lia. }
  split; [|split; [|split; [|apply P]]].
  - unfold xidle. cbn [set_out set_filter set_queue set_sink set_idx n_out n_queue n_filter n_sink]. split; [|split; [|repeat split]].
    + intros u. unfold upd. destruct (weqb (Fil "filters.f") u) eqn:E1; [reflexivity|]. destruct (weqb Tim u) eqn:E2; [reflexivity|apply O].
    + intros v. unfold upd. destruct (seqb "sinks.null" v) eqn:E1; [reflexivity|]. destruct (seqb "filters.f" v) eqn:E2; [reflexivity|apply Eq].
    + unfold upd. cbn. unfold timer_flushes. rewrite flat_map_app. fold (timer_flushes (sr_calls (n_sink s "sinks.null"))). rewrite Ec. reflexivity.
  - intros u d e H. rewrite !in_app_iff in H. cbn [In] in H. destruct H as [[[[[[H|[H|[]]]|[H|[]]]|[H|[]]]|[H|[]]]|[H|[]]]|[H|[]]]; try discriminate H. exact (Nd _ _ _ H).
  - rewrite P. cbn [set_out set_filter set_queue set_sink set_idx n_idx]. unfold i. rewrite Ei. lia.
Qed.
Theorem C130_refuted : exists (Q : QLib) (S : Type) proc (st0 : string -> S) fint g t u via d,
  distinct_ids g /\ wire g = Going t /\ In u (map fst (g_natives g ++ g_sources g)) /\ way g u via d /\ In d (g_sinks g) /\ fint d = Some 1%N /\
  forall n, (N.of_nat n < 2 ^ 64)%N -> exists tr s, nrun proc st0 fint t tr s /\ no_drops tr /\ pulses tr = n /\
    (forall w, n_out s w = []) /\ (forall v, n_queue s v = []) /\ sr_hand (n_sink s d) = None /\ (forall v, ~ halted g s v) /\
    timer_flushes (sr_calls (n_sink s d)) = [].
Proof.
  exists xQ, (@prog xQ xbare), xbare_proc, xbare0, (fun _ => Some 1%N), xrow, xrow_started, "sources.a", ["filters.f"], "sinks.null".
  split; [exact xrow_ids|]. split; [exact xrow_wired|]. split; [left; reflexivity|]. split; [exact (proj1 (proj2 C129_ex))|]. split; [left; reflexivity|]. split; [reflexivity|].
  assert (A : forall n, (N.of_nat n < 2 ^ 64)%N -> exists tr s, nrun xbare_proc xbare0 (fun _ => Some 1%N) xrow_started tr s /\ xidle s /\ no_drops tr /\ n_idx s = N.of_nat (pulses tr) /\ pulses tr = n).
  { induction n as [|n IH]; intros Hn.
    - exists [], (net0 xbare0). split; [constructor|]. split; [split; [reflexivity|]; repeat split|]. split; [intros u d e []|split; reflexivity].
    - destruct IH as (tr & s & R & I & Nd & Ei & P); [lia|]. destruct (xidle_next tr s R I Nd Ei) as (tr' & s' & R' & I' & Nd' & Ei' & P'); [rewrite P; lia|].
      exists tr', s'. split; [exact R'|]. split; [exact I'|]. split; [exact Nd'|]. split; [exact Ei'|]. rewrite P', P. lia. }
  intros n Hn. destruct (A n Hn) as (tr & s & R & (O & Eq & Fs & Fl & Es & Eh & Est & Ec) & Nd & _ & P). exists tr, s.
  split; [exact R|]. split; [exact Nd|]. split; [exact P|]. split; [exact O|]. split; [exact Eq|]. split; [exact Eh|]. split; [|exact Ec].
  intros v [[Hv H]|[Hv H]]; (destruct Hv as [<-|[]]); [change (fn_stopped (n_filter s "filters.f") = true) in H; rewrite Fs in H|rewrite Est in H]; discriminate H.
Qed.

(** ** Example: a source, a filter that hands everything on, a sink; a line and a pulse, again and again, for ever *)
Section Loop.
Context {Q : QLib} {S : Type}.
Variable proc : string -> S -> event -> S * list event * option event.
Variable st0 : string -> S.
Variable fint : string -> option N.
Variable t : started.
(** the moves of one round *)
Variable moves : list ((@net Q S -> label) * (@net Q S -> @net Q S)).
Variable good : @net Q S -> Prop.
Definition within (s : @net Q S) (r : nat) : @net Q S := fold_left (fun a c => snd c a) (firstn r moves) s.
Hypothesis Hm : moves <> [].
Hypothesis Hstep : forall s r c, good s -> nth_error moves r = Some c -> nstep proc fint t (within s r) (fst c (within s r)) (snd c (within s r)).
Hypothesis Hgood : forall s, good s -> good (within s (List.length moves)).
Definition round (k : nat) : @net Q S := Nat.iter k (fun s => within s (List.length moves)) (net0 st0).
Definition loop_x (i : nat) : @net Q S := within (round (i / List.length moves)) (i mod List.length moves).
Definition loop_l (i : nat) : option (@label Q) := option_map (fun c => fst c (loop_x i)) (nth_error moves (i mod List.length moves)).
Hypothesis H0 : good (net0 st0).
Lemma round_good k : good (round k).
Proof. induction k as [|k IH]; [exact H0|]. apply Hgood. exact IH. Qed.
Lemma within_next s r c : nth_error moves r = Some c -> within s (r + 1) = snd c (within s r).
Proof.
  intros E. apply nth_error_split in E as (l1 & l2 & E & El). unfold within. rewrite E, <- El.
  replace (List.length l1 + 1) with (List.length (l1 ++ [c])) by (rewrite app_length; reflexivity).
  replace (l1 ++ c :: l2) with ((l1 ++ [c]) ++ l2) at 1 by (rewrite <- app_assoc; reflexivity). rewrite firstn_app, firstn_all, Nat.sub_diag. cbn [firstn]. rewrite app_nil_r.
  rewrite firstn_app, firstn_all, Nat.sub_diag. cbn [firstn]. rewrite app_nil_r, fold_left_app. reflexivity.
Qed.
Lemma loop_execution : execution proc st0 fint t loop_x loop_l.
Proof.
  assert (Hp : List.length moves <> 0) by (destruct moves; [congruence|discriminate]).
  split; [unfold loop_x; rewrite Nat.div_0_l, Nat.mod_0_l by exact Hp; reflexivity|]. intros i. unfold loop_l.
  set (p := List.length moves) in *. assert (Hr : i mod p < p) by (apply Nat.mod_upper_bound; exact Hp).
  destruct (nth_error moves (i mod p)) as [c|] eqn:E; [|apply nth_error_None in E; fold p in E; lia]. cbn [option_map].
  replace (loop_x (i + 1)) with (snd c (loop_x i)); [unfold loop_x; apply Hstep; [apply round_good|exact E]|].
  unfold loop_x. rewrite <- (within_next _ _ _ E). fold p. destruct (Nat.eq_dec (i mod p + 1) p) as [H|H].
  - assert (D : (i + 1) / p = i / p + 1 /\ (i + 1) mod p = 0).
    { assert (E2 : i + 1 = p * (i / p + 1) + 0) by (pose proof (Nat.div_mod i p Hp); lia). split; [symmetry; apply (Nat.div_unique _ _ _ 0); lia|symmetry; apply (Nat.mod_unique _ _ (i / p + 1)); lia]. }
    destruct D as [-> ->]. rewrite H. replace (i / p + 1) with (Datatypes.S (i / p)) by lia. reflexivity.
  - assert (E2 : i + 1 = p * (i / p) + (i mod p + 1)) by (pose proof (Nat.div_mod i p Hp); lia).
    replace ((i + 1) / p) with (i / p) by (apply (Nat.div_unique _ _ _ (i mod p + 1)); lia). replace ((i + 1) mod p) with (i mod p + 1) by (apply (Nat.mod_unique _ _ (i / p)); lia). reflexivity.
Qed.
Lemma loop_round k : loop_x (k * List.length moves) = round k.
Proof.
  assert (Hp : List.length moves <> 0) by (destruct moves; [congruence|discriminate]).
  unfold loop_x. rewrite Nat.div_mul, Nat.mod_mul by exact Hp. reflexivity.
Qed.
Lemma loop_label i a : loop_l i = Some a -> exists c s, In c moves /\ a = fst c s.
Proof. unfold loop_l. destruct (nth_error moves _) as [c|] eqn:E; [|discriminate]. intros [= <-]. apply nth_error_In in E. eauto. Qed.
Lemma loop_again r c : nth_error moves r = Some c -> again_and_again (fun i => exists s, loop_l i = Some (fst c s)).
Proof.
  intros E i. assert (Hl : r < List.length moves) by (apply nth_error_Some; congruence). exists (i * List.length moves + r). split; [nia|].
  exists (loop_x (i * List.length moves + r)). unfold loop_l. replace ((i * List.length moves + r) mod List.length moves) with r; [rewrite E; reflexivity|].
  apply (Nat.mod_unique _ _ i); lia.
Qed.
End Loop.

Definition xlog : @event xQ := ELog (mkLog 7 "p" "v" [] None).
Notation xpass := (fun (_ : string) (st : unit) (e : @event xQ) => (st, [e], @None (@event xQ))).
Notation xnet := (@net xQ unit).
Definition xpoll_f (e : N -> @event xQ) : (xnet -> @label xQ) * (xnet -> xnet) :=
  (fun s => LPoll "filters.f" (e (n_idx s)), fun s =>
    set_out (Fil "filters.f") (flat_map (copies ["sinks.null"]) (snd (filter_turn xpass "filters.f" (List.length ["sources.a"]) (n_filter s "filters.f") (e (n_idx s)))))
      (set_filter "filters.f" (fst (filter_turn xpass "filters.f" (List.length ["sources.a"]) (n_filter s "filters.f") (e (n_idx s)))) (set_queue "filters.f" [] s))).
Definition xpoll_k (e : N -> @event xQ) : (xnet -> @label xQ) * (xnet -> xnet) :=
  (fun s => LPoll "sinks.null" (e (n_idx s)), fun s =>
    set_sink "sinks.null" (sink_step 1 (Some 2%N) (sink_step 1 (Some 2%N) (n_sink s "sinks.null") (Arrive (e (n_idx s)))) FlowModel.Poll) (set_queue "sinks.null" [] s)).
Definition xcopy (u : who) (d : string) (e : N -> @event xQ) : (xnet -> @label xQ) * (xnet -> xnet) :=
  (fun s => LCopy u d (e (n_idx s)) true, fun s => set_out u [] (set_queue d (n_queue s d ++ [e (n_idx s)]) s)).
Definition xopen : (xnet -> @label xQ) * (xnet -> xnet) :=
  (fun _ => LValve "sinks.null" true, fun s => set_sink "sinks.null" (sink_step 1 (Some 2%N) (n_sink s "sinks.null") (ValveSays true)) s).
Definition xemit : (xnet -> @label xQ) * (xnet -> xnet) :=
  (fun _ => LEmit "sources.a" 1 xlog, fun s => set_out (Src "sources.a" 1) (copies ["filters.f"] xlog) s).
Definition xtick : (xnet -> @label xQ) * (xnet -> xnet) :=
  (fun _ => LPulse, fun s => set_out Tim (copies ["filters.f"] (ETimerFlush ((n_idx s + 1) mod 2 ^ 64)%N)) (set_idx ((n_idx s + 1) mod 2 ^ 64)%N s)).
Notation xnow := (@ETimerFlush xQ).
Notation xln := (fun _ : N => xlog).
Definition xmoves : list ((xnet -> @label xQ) * (xnet -> xnet)) :=
  [xemit; xcopy (Src "sources.a" 1) "filters.f" xln; xpoll_f xln; xcopy (Fil "filters.f") "sinks.null" xln; xpoll_k xln; xopen;
   xtick; xcopy Tim "filters.f" xnow; xpoll_f xnow; xcopy (Fil "filters.f") "sinks.null" xnow; xpoll_k xnow; xopen].
(** between two rounds nothing is under way *)
Definition xgood (s : xnet) : Prop :=
  (forall u, n_out s u = []) /\ (forall v, n_queue s v = []) /\ (n_filter s "filters.f" = mkFnode tt [] 0 false) /\ n_done s "sources.a" = false /\
  sr_queue (n_sink s "sinks.null") = [] /\ sr_hand (n_sink s "sinks.null") = None /\ sr_stopped (n_sink s "sinks.null") = false.
(** the rounds are made of two halves of the same kind *)
Lemma xhalf1 (s : xnet) u (e : @event xQ) : xgood s -> is_shutdown e = false -> u <> Fil "filters.f" ->
  let s0 := set_out u (copies ["filters.f"] e) s in
  let s1 := snd (xcopy u "filters.f" (fun _ => e)) s0 in
  let s2 := snd (xpoll_f (fun _ => e)) s1 in let s3 := snd (xcopy (Fil "filters.f") "sinks.null" (fun _ => e)) s2 in
  let s4 := snd (xpoll_k (fun _ => e)) s3 in let s5 := snd xopen s4 in
  nstep xpass (fun _ => Some 2%N) xrow_started s0 (fst (xcopy u "filters.f" (fun _ => e)) s0) s1 /\
  nstep xpass (fun _ => Some 2%N) xrow_started s1 (fst (xpoll_f (fun _ => e)) s1) s2 /\
  nstep xpass (fun _ => Some 2%N) xrow_started s2 (fst (xcopy (Fil "filters.f") "sinks.null" (fun _ => e)) s2) s3 /\
  nstep xpass (fun _ => Some 2%N) xrow_started s3 (fst (xpoll_k (fun _ => e)) s3) s4 /\
  nstep xpass (fun _ => Some 2%N) xrow_started s4 (fst xopen s4) s5 /\ xgood s5.
Proof.
  intros (O & Eq & Ef & Edn & Es & Eh & Est) He Hu. cbv zeta.
  assert (Wu : weqb u (Fil "filters.f") = false) by (destruct (weqb u (Fil "filters.f")) eqn:E; [apply weqb_eq in E; contradiction|reflexivity]).
  assert (Ft : filter_turn xpass "filters.f" (List.length ["sources.a"]) (mkFnode tt [] 0 false) e = (mkFnode tt [] 0 false, [e])) by (destruct e; try discriminate He; reflexivity).
  cbn [fst snd xcopy xpoll_f xpoll_k xopen].
  split; [apply (step_copy _ _ xrow_started (set_out u (copies ["filters.f"] e) s) u "filters.f" e [] true); cbn [n_out set_out]; unfold upd; rewrite weqb_refl; reflexivity|].
  split; [refine (step_filter _ _ xrow_started _ "filters.f" ["sources.a"] ["sinks.null"] e [] Logic.eq_refl _ _ _)|].
  { cbn [n_out set_out set_queue]. unfold upd. rewrite Wu. apply O. }
  { cbn [n_filter set_out set_queue]. rewrite Ef. reflexivity. }
  { cbn [n_queue set_out set_queue]. unfold upd. change (seqb "filters.f" "filters.f") with true. cbv iota. rewrite Eq. reflexivity. }
  cbn [n_filter set_out set_queue set_filter]. rewrite Ef, Ft. cbn [fst snd flat_map app].
  split; [apply (step_copy _ _ xrow_started _ (Fil "filters.f") "sinks.null" e [] true); cbn [n_out set_out set_queue set_filter]; unfold upd; rewrite weqb_refl; reflexivity|].
  split; [refine (step_sink _ (fun _ => Some 2%N) xrow_started _ "sinks.null" ["filters.f"] e [] Logic.eq_refl _ _ _)|].
  { exact Est. }
  { exact Eh. }
  { cbn [n_queue set_out set_queue set_filter]. unfold upd. change (seqb "sinks.null" "sinks.null") with true. change (seqb "filters.f" "sinks.null") with false. cbv iota. rewrite Eq. reflexivity. }
  cbn [n_sink set_out set_queue set_filter set_sink].
  assert (Ks : sink_step 1 (Some 2%N) (sink_step 1 (Some 2%N) (n_sink s "sinks.null") (Arrive e)) FlowModel.Poll =
     mkSinkRun [] (Some e) (sr_last (n_sink s "sinks.null")) (sr_shut (n_sink s "sinks.null")) false (sr_calls (n_sink s "sinks.null"))).
  { unfold sink_step. cbn [sr_stopped sr_hand sr_queue sr_last sr_shut sr_calls]. rewrite Est, Eh, Es. reflexivity. }
  rewrite Ks.
  split; [refine (step_valve _ (fun _ => Some 2%N) xrow_started _ "sinks.null" ["filters.f"] true e Logic.eq_refl _ _); reflexivity|].
  unfold xgood. cbn [n_out n_queue n_filter n_done n_sink set_out set_queue set_filter set_sink].
  split; [|split; [|split; [|split]]].
  - intros u'. unfold upd. destruct (weqb (Fil "filters.f") u'); [reflexivity|]. destruct (weqb u u'); [reflexivity|apply O].
  - intros v. unfold upd. destruct (seqb "sinks.null" v); [reflexivity|]. destruct (seqb "filters.f" v); [reflexivity|apply Eq].
  - reflexivity.
  - exact Edn.
  - unfold upd. change (seqb "sinks.null" "sinks.null") with true. cbv iota. cbn [sink_step sr_stopped sr_hand].
    destruct e; try discriminate He; cbn [sink_inner sr_last sr_queue]; try (destruct (_ <? _)%N); auto.
Qed.
Lemma xcopy_is u d g (s : xnet) n : n_idx s = n -> snd (xcopy u d g) s = snd (xcopy u d (fun _ => g n)) s /\ fst (xcopy u d g) s = fst (xcopy u d (fun _ => g n)) s.
Proof. intros <-. split; reflexivity. Qed.
Lemma xpoll_f_is g (s : xnet) n : n_idx s = n -> snd (xpoll_f g) s = snd (xpoll_f (fun _ => g n)) s /\ fst (xpoll_f g) s = fst (xpoll_f (fun _ => g n)) s.
Proof. intros <-. split; reflexivity. Qed.
Lemma xpoll_k_is g (s : xnet) n : n_idx s = n -> snd (xpoll_k g) s = snd (xpoll_k (fun _ => g n)) s /\ fst (xpoll_k g) s = fst (xpoll_k (fun _ => g n)) s.
Proof. intros <-. split; reflexivity. Qed.
Lemma xhalf (s : xnet) u (g : N -> @event xQ) : xgood s -> is_shutdown (g (n_idx s)) = false -> u <> Fil "filters.f" ->
  let s0 := set_out u (copies ["filters.f"] (g (n_idx s))) s in
  let s1 := snd (xcopy u "filters.f" g) s0 in
  let s2 := snd (xpoll_f g) s1 in let s3 := snd (xcopy (Fil "filters.f") "sinks.null" g) s2 in
  let s4 := snd (xpoll_k g) s3 in let s5 := snd xopen s4 in
  nstep xpass (fun _ => Some 2%N) xrow_started s0 (fst (xcopy u "filters.f" g) s0) s1 /\
  nstep xpass (fun _ => Some 2%N) xrow_started s1 (fst (xpoll_f g) s1) s2 /\
  nstep xpass (fun _ => Some 2%N) xrow_started s2 (fst (xcopy (Fil "filters.f") "sinks.null" g) s2) s3 /\
  nstep xpass (fun _ => Some 2%N) xrow_started s3 (fst (xpoll_k g) s3) s4 /\
  nstep xpass (fun _ => Some 2%N) xrow_started s4 (fst xopen s4) s5 /\ xgood s5.
Proof.
  intros G He Hu. pose proof (xhalf1 s u (g (n_idx s)) G He Hu) as H. cbv zeta in *.
  set (s0 := set_out u _ s) in *. assert (I0 : n_idx s0 = n_idx s) by reflexivity. clearbody s0.
  destruct (xcopy_is u "filters.f" g s0 _ I0) as [-> ->]. set (s1 := snd (xcopy u _ _) s0) in *. assert (I1 : n_idx s1 = n_idx s) by exact I0. clearbody s1.
  destruct (xpoll_f_is g s1 _ I1) as [-> ->]. set (s2 := snd (xpoll_f _) s1) in *. assert (I2 : n_idx s2 = n_idx s) by exact I1. clearbody s2.
  destruct (xcopy_is (Fil "filters.f") "sinks.null" g s2 _ I2) as [-> ->]. set (s3 := snd (xcopy _ _ _) s2) in *. assert (I3 : n_idx s3 = n_idx s) by exact I2. clearbody s3.
  destruct (xpoll_k_is g s3 _ I3) as [-> ->]. exact H.
Qed.
Lemma xgood_idx i (s : xnet) : xgood s -> xgood (set_idx i s).
Proof. intros H. exact H. Qed.
Lemma xhalf_tick (s : xnet) : xgood s ->
  let s0 := snd xtick s in
  let s1 := snd (xcopy Tim "filters.f" xnow) s0 in
  let s2 := snd (xpoll_f xnow) s1 in let s3 := snd (xcopy (Fil "filters.f") "sinks.null" xnow) s2 in
  let s4 := snd (xpoll_k xnow) s3 in let s5 := snd xopen s4 in
  nstep xpass (fun _ => Some 2%N) xrow_started s0 (fst (xcopy Tim "filters.f" xnow) s0) s1 /\
  nstep xpass (fun _ => Some 2%N) xrow_started s1 (fst (xpoll_f xnow) s1) s2 /\
  nstep xpass (fun _ => Some 2%N) xrow_started s2 (fst (xcopy (Fil "filters.f") "sinks.null" xnow) s2) s3 /\
  nstep xpass (fun _ => Some 2%N) xrow_started s3 (fst (xpoll_k xnow) s3) s4 /\
  nstep xpass (fun _ => Some 2%N) xrow_started s4 (fst xopen s4) s5 /\ xgood s5.
Proof.
  intros G. pose proof (xhalf (set_idx ((n_idx s + 1) mod 2 ^ 64)%N s) Tim xnow (xgood_idx _ _ G) Logic.eq_refl ltac:(discriminate)) as H.
  change (set_out Tim (copies ["filters.f"] (ETimerFlush (n_idx (set_idx ((n_idx s + 1) mod 2 ^ 64)%N s)))) (set_idx ((n_idx s + 1) mod 2 ^ 64)%N s)) with (snd xtick s) in H. exact H.
Qed.
Lemma xmoves_step s r c : xgood s -> nth_error xmoves r = Some c -> nstep xpass (fun _ => Some 2%N) xrow_started (within xmoves s r) (fst c (within xmoves s r)) (snd c (within xmoves s r)).
Proof.
  intros G E. destruct (xhalf s (Src "sources.a" 1) xln G Logic.eq_refl ltac:(discriminate)) as (A1 & A2 & A3 & A4 & A5 & G'). cbv zeta in *.
  destruct (xhalf_tick _ G') as (B1 & B2 & B3 & B4 & B5 & _). cbv zeta in *.
  destruct r as [|[|[|[|[|[|[|[|[|[|[|[|r]]]]]]]]]]]]; [injection E as <-..|].
  - destruct G as (O & _ & _ & Ed & _). exact (step_emit xpass (fun _ => Some 2%N) xrow_started s "sources.a" ["filters.f"] 1 xlog Logic.eq_refl Ed (O _) Logic.eq_refl).
  - exact A1.
  - exact A2.
  - exact A3.
  - exact A4.
  - exact A5.
  - destruct G' as (O & _). exact (step_pulse xpass (fun _ => Some 2%N) xrow_started _ (O Tim)).
  - exact B1.
  - exact B2.
  - exact B3.
  - exact B4.
  - exact B5.
  - destruct r; discriminate E.
Qed.
Lemma xmoves_good s : xgood s -> xgood (within xmoves s 12).
Proof.
  intros G. destruct (xhalf s (Src "sources.a" 1) xln G Logic.eq_refl ltac:(discriminate)) as (_ & _ & _ & _ & _ & G'). cbv zeta in *.
  destruct (xhalf_tick _ G') as (_ & _ & _ & _ & _ & G''). cbv zeta in *.
  exact G''.
Qed.
Definition xx : nat -> xnet := loop_x (fun _ => tt) xmoves.
Definition xl : nat -> option (@label xQ) := loop_l (fun _ => tt) xmoves.
Lemma xgood0 : xgood (net0 (fun _ => tt)).
Proof. split; [reflexivity|]. split; [reflexivity|]. repeat split. Qed.
Example C130_through_ex : execution xpass (fun _ => tt) (fun _ => Some 2%N) xrow_started xx xl /\ fair xrow xx xl /\ timer_goes xl /\ all_kept xl /\
  way xrow "sources.a" ["filters.f"] "sinks.null" /\ handed xpass (fun _ => tt) xrow "sinks.null" /\ pulses_kept xrow xl "sinks.null" /\
  In xlog (emitted "sources.a" 1 (before xl 1)).
Proof.
  assert (Hm : xmoves <> []) by discriminate.
  assert (Rg : forall i, exists j, i <= j /\ xgood (xx j)).
  { intros i. exists (i * 12). split; [lia|]. unfold xx. change 12 with (List.length xmoves). rewrite (loop_round xpass (fun _ => tt) (fun _ => Some 2%N) xrow_started xmoves xgood Hm xmoves_step xmoves_good). exact (round_good _ _ xgood xmoves_good xgood0 i). }
  assert (K : all_kept xl).
  { intros i u d e E. apply (loop_label (fun _ => tt) xmoves) in E as (c & s & Hin & E). repeat (destruct Hin as [<-|Hin]; [discriminate E|]). exact Hin. }
  split; [exact (loop_execution xpass (fun _ => tt) (fun _ => Some 2%N) xrow_started xmoves xgood Hm xmoves_step xmoves_good xgood0)|].
  split; [split; [intros u|intros d [<-|[]]|intros d [<-|[]]|intros d [<-|[]]]; intros i; destruct (Rg i) as (j & Hj & (O & Eq & _ & _ & _ & Eh & _)); exists j; (split; [exact Hj|])|].
  - left. apply O.
  - left. left. apply Eq.
  - left. left. apply Eq.
  - left. exact Eh.
  - split; [|split; [exact K|]].
    + intros i. destruct (loop_again xpass (fun _ => tt) (fun _ => Some 2%N) xrow_started xmoves xgood xmoves_step 6 xtick Logic.eq_refl i) as (j & Hj & s & E). exists j. split; [exact Hj|exact E].
    + split; [exact (proj1 (proj2 C129_ex))|]. split; [|split; [intros i u v n _; apply K|left; reflexivity]].
      intros f _ _. exists (fun _ => True), (fun _ => 0%N). split; [exact Logic.I|]. split; [reflexivity|]. intros st e _ _. cbn. split; [exact Logic.I|]. split; [intros ? [=]|].
      destruct e; auto.
Qed.

Print Assumptions C130_flushed_through_filters.
Print Assumptions C130_not_ahead.
Print Assumptions C130_filters.
Print Assumptions C130_refuted.
