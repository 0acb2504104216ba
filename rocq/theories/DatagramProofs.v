(** * Proofs about the loop of the statsd source over its sockets *)
From Verif Require Import Base BaseFacts TelemetryModel ParseModel ParseSpec ParseProofs Utf8 RuntimeModel AcceptModel AcceptProofs DatagramModel DatagramSpec.
Open Scope string_scope. Open Scope list_scope. Open Scope nat_scope.

Section P.
Context `{Q : QLib}.
Variable pf : string -> option f64.
Variable cfg : statsd_cfg.
Variable now : Z.
Variable base : telemetry.
Notation step := (udp_step pf cfg now base).
Notation run := (udp_run pf cfg now base).

Lemma urun_app : forall a b s, run (a ++ b) s = match run a s with Some s' => run b s' | None => None end.
Proof. induction a as [|m a IH]; intros b s; cbn [udp_run List.app]; [reflexivity|]. destruct (step s m); [apply IH|reflexivity]. Qed.
Lemma urun_inv (P : udp -> Prop) (ok : umove -> Prop) : (forall s m s', ok m -> P s -> step s m = Some s' -> P s') ->
  forall ms s s', Forall ok ms -> P s -> run ms s = Some s' -> P s'.
Proof.
  intros H. induction ms as [|m ms IH]; intros s s' F I E; cbn [udp_run] in E; [injection E as <-; exact I|]. inversion F; subst.
  destruct (step s m) as [s1|] eqn:E1; [|discriminate]. apply (IH s1 s'); [assumption|apply (H s m s1); assumption|exact E].
Qed.
Lemma all_true {A} (l : list A) : Forall (fun _ => True) l.
Proof. induction l; constructor; trivial. Qed.

(** ** Polling *)
Lemma utake_event_same s x : let s' := utake_event s x in
  List.length (ud_socks s') = List.length (ud_socks s) /\ ud_phase s' = ud_phase s /\ ud_calls s' = ud_calls s /\ ud_sent s' = ud_sent s /\ ud_good s' = ud_good s /\ ud_bad s' = ud_bad s /\
  (forall i k, nth_error (ud_socks s) i = Some k -> exists k', nth_error (ud_socks s') i = Some k' /\ so_queue k' = so_queue k /\ so_reg k' = so_reg k) /\
  forall y, uwaiting s' y = true <-> uwaiting s y = true /\ x <> y.
Proof.
  destruct x as [|j]; cbn.
  - repeat (split; [reflexivity|]). split; [intros i k H; exists k; auto|]. intros [|i]; cbn; [split; [discriminate|intros [_ H]; congruence]|].
    split; [intros H; split; [exact H|discriminate]|tauto].
  - split; [apply update_length|]. repeat (split; [reflexivity|]). split.
    + intros i k H. destruct (Nat.eq_dec j i) as [->|Hne]; [rewrite update_eq, H; cbn; eexists; split; [reflexivity|auto]|rewrite update_ne by exact Hne; exists k; auto].
    + intros [|i]; cbn; [split; [intros H; split; [exact H|discriminate]|tauto]|]. destruct (Nat.eq_dec j i) as [->|Hne].
      * rewrite update_eq. destruct (nth_error (ud_socks s) i); cbn; (split; [discriminate|intros [_ H]; congruence]).
      * rewrite update_ne by exact Hne. split; [intros H; split; [exact H|congruence]|tauto].
Qed.
Lemma utake_all_same : forall xs s s', utake_all xs s = Some s' ->
  List.length (ud_socks s') = List.length (ud_socks s) /\ ud_phase s' = ud_phase s /\ ud_calls s' = ud_calls s /\ ud_sent s' = ud_sent s /\ ud_good s' = ud_good s /\ ud_bad s' = ud_bad s /\
  (forall i k, nth_error (ud_socks s) i = Some k -> exists k', nth_error (ud_socks s') i = Some k' /\ so_queue k' = so_queue k /\ so_reg k' = so_reg k) /\
  (forall x, In x xs -> uwaiting s x = true) /\ forall y, uwaiting s' y = true <-> uwaiting s y = true /\ ~ In y xs.
Proof.
  induction xs as [|x xs IH]; intros s s' E; cbn [utake_all] in E.
  - injection E as <-. repeat (split; [reflexivity|]). split; [intros i k H; exists k; auto|]. split; [intros x []|]. intros y. cbn. tauto.
  - destruct (uwaiting s x) eqn:W; [|discriminate]. destruct (IH _ _ E) as (A1 & A2 & A3 & A4 & A5 & A6 & A7 & A8 & A9). destruct (utake_event_same s x) as (B1 & B2 & B3 & B4 & B5 & B6 & B7 & B8).
    cbv zeta in *. repeat (split; [congruence|]). split; [|split].
    + intros i k H. destruct (B7 i k H) as (k1 & H1 & H2 & H3). destruct (A7 i k1 H1) as (k2 & K1 & K2 & K3). exists k2. split; [exact K1|]. split; congruence.
    + intros y [<-|Hy]; [exact W|]. apply A8, B8 in Hy. tauto.
    + intros y. rewrite A9, B8. cbn. tauto.
Qed.
Lemma utake_all_some : forall xs s, NoDup xs -> (forall x, In x xs -> uwaiting s x = true) -> exists s', utake_all xs s = Some s'.
Proof.
  induction xs as [|x xs IH]; intros s N H; cbn [utake_all]; [eauto|]. rewrite (H x) by (left; reflexivity). inversion N as [|? ? N1 N2]; subst.
  apply IH; [exact N2|]. intros y Hy. destruct (utake_event_same s x) as (_ & _ & _ & _ & _ & _ & _ & B). apply B. split; [apply H; right; exact Hy|]. intros ->. contradiction.
Qed.

(** ** The shape of every state *)
Definition upend (p : uphase) : list N := match p with UEvents l => l | URecv _ _ rest => rest | _ => [] end.
Definition utok (n : nat) (t : N) : Prop := t = system_token \/ exists i, t = N.of_nat i /\ i < n.
Record uinv (n : nat) (s : udp) : Prop := mkUI {
  ui_len : List.length (ud_socks s) = n;
  ui_pend : Forall (utok n) (upend (ud_phase s));
  ui_at : forall i ms rest, ud_phase s = URecv i ms rest -> i < n /\ ud_calls s <> [];
  ui_reg : forall i k, nth_error (ud_socks s) i = Some k -> so_reg k = true;
}.
Lemma ustart_inv queues : uinv (List.length queues) (udp_start queues).
Proof.
  constructor; cbn; [apply map_length|constructor|discriminate|]. intros i k H. rewrite nth_error_map in H. destruct (nth_error queues i); [|discriminate]. injection H as <-. reflexivity.
Qed.
Lemma add_last_nil {A} (x : A) l : l <> [] -> add_last x l <> [].
Proof. destruct l as [|c [|c' r]]; cbn; congruence. Qed.
Lemma add_last_snoc {A} (x : A) l c : add_last x (l ++ [c]) = l ++ [c ++ [x]].
Proof. induction l as [|d l IH]; [reflexivity|]. cbn [List.app add_last]. rewrite IH. destruct l; reflexivity. Qed.
Lemma upd_reg (f : sock datagram -> sock datagram) l i : (forall k, so_reg (f k) = so_reg k) -> (forall j k, nth_error l j = Some k -> so_reg k = true) ->
  forall j k, nth_error (update i f l) j = Some k -> so_reg k = true.
Proof.
  intros Hf H j k Hk. destruct (Nat.eq_dec i j) as [->|Hne]; [|rewrite update_ne in Hk by exact Hne; eapply H; eauto].
  rewrite update_eq in Hk. destruct (nth_error l j) as [k0|] eqn:E; [|discriminate]. injection Hk as <-. rewrite Hf. eapply H; eauto.
Qed.
(** what a receive does *)
Lemma on_receive_cases s i metrics rest a s' : on_receive pf cfg now base s i metrics rest a = Some s' ->
  exists k, nth_error (ud_socks s) i = Some k /\
   ((exists d q p sent g b, a = UData /\ so_queue k = d :: q /\
       s' = mkUdp (update i sock_take (ud_socks s)) (ud_signal s) p (add_last (i, d) (ud_calls s)) sent g b /\
       ((utf8 (received d) = false /\ p = URecv i metrics rest /\ sent = ud_sent s /\ g = ud_good s /\ b = ud_bad s) \/
        (utf8 (received d) = true /\ exists out, parse_statsd pf cfg now base (text (received d)) metrics = out /\
           match out with
           | PReturn true ms => p = URecv i [] rest /\ sent = ud_sent s ++ map ETelemetry ms /\ g = (ud_good s + 1)%N /\ b = ud_bad s
           | PReturn false ms => p = URecv i ms rest /\ sent = ud_sent s /\ g = ud_good s /\ b = (ud_bad s + 1)%N
           | PPanicked => p = UPanic /\ sent = ud_sent s /\ g = ud_good s /\ b = ud_bad s
           end)))
    \/ (a = UBlocked /\ so_queue k = [] /\ s' = with_uphase s (UEvents rest)) \/ (a = UFailed /\ s' = with_uphase s (UEvents rest))).
Proof.
  unfold on_receive. destruct (nth_error (ud_socks s) i) as [k|]; [|discriminate]. intros E. exists k. split; [reflexivity|]. destruct a.
  - left. destruct (so_queue k) as [|d q] eqn:Eq; [discriminate|]. exists d, q. destruct (utf8 (received d)) eqn:Eu.
    + destruct (parse_statsd pf cfg now base (text (received d)) metrics) as [[] ms|] eqn:Ep; injection E as <-; do 4 eexists; (split; [reflexivity|split; [reflexivity|split; [reflexivity|]]]); right; (split; [reflexivity|]); eexists; (split; [reflexivity|]); cbn; auto.
    + injection E as <-. do 4 eexists; (split; [reflexivity|split; [reflexivity|split; [reflexivity|]]]). left. auto.
  - right. left. destruct (so_queue k); [|discriminate]. injection E as <-. auto.
  - right. right. assert (E' : Some (with_uphase s (UEvents rest)) = Some s') by (destruct (so_queue k); exact E). injection E' as <-. auto.
Qed.
Lemma on_receive_phase s i metrics rest a s' : on_receive pf cfg now base s i metrics rest a = Some s' ->
  (a = UData /\ ((exists ms, ud_phase s' = URecv i ms rest) \/ ud_phase s' = UPanic)) \/ (a <> UData /\ ud_phase s' = UEvents rest).
Proof.
  intros E. apply on_receive_cases in E as (k & _ & [(d & q & p & sent & g & b & -> & _ & -> & [(_ & -> & _)|(_ & out & _ & H)])|[(-> & _ & ->)|(-> & ->)]]); cbn [ud_phase with_uphase]; eauto; [| right; split; [discriminate|reflexivity]..].
  left. split; [reflexivity|]. destruct out as [[] ms|]; destruct H as (-> & _); eauto.
Qed.
Lemma ustep_inv n s m s' : (N.of_nat n < 2048)%N -> uinv n s -> step s m = Some s' -> uinv n s'.
Proof.
  intros Hn [H1 H2 H3 H4] E. destruct m as [j d| |xs| |a]; cbn [udp_step] in E.
  - destruct (j <? List.length (ud_socks s)); [|discriminate]. injection E as <-. constructor; cbn [ud_socks ud_phase ud_calls]; [rewrite update_length; exact H1|exact H2|exact H3|].
    apply upd_reg; [reflexivity|exact H4].
  - injection E as <-. constructor; assumption.
  - destruct (ud_phase s); try discriminate. destruct (utake_all xs s) as [s2|] eqn:Et; [|discriminate]. injection E as <-. destruct (utake_all_same _ _ _ Et) as (A1 & A2 & A3 & _ & _ & _ & A7 & A8 & _).
    constructor; cbn [with_uphase ud_socks ud_phase ud_calls upend]; [congruence| |discriminate|].
    + apply Forall_forall. intros t Ht. apply in_map_iff in Ht as (x & <- & Hx). apply A8 in Hx. destruct x as [|i]; [left; reflexivity|]. right. exists i. split; [reflexivity|]. cbn in Hx. destruct (nth_error (ud_socks s) i) eqn:Ei; [|discriminate]. rewrite <- H1. apply nth_error_Some. congruence.
    + intros i k Hk. destruct (nth_error (ud_socks s) i) as [k0|] eqn:E0; [|apply nth_error_None in E0; assert (i < List.length (ud_socks s2)) by (apply nth_error_Some; congruence); lia].
      destruct (A7 i k0 E0) as (k' & K1 & _ & K3). rewrite Hk in K1. injection K1 as <-. rewrite K3. eapply H4; eauto.
  - destruct (ud_phase s) as [|[|t rest]| | |] eqn:Ep; try discriminate; injection E as <-.
    + constructor; cbn; [exact H1|constructor|discriminate|exact H4].
    + cbn [upend] in H2. inversion H2 as [|? ? T1 T2]; subst. unfold on_utoken. destruct (t =? system_token)%N; [constructor; cbn; [reflexivity|constructor|discriminate|exact H4]|].
      destruct (slab_get (ud_socks s) (N.to_nat t)) as [k|] eqn:Eg; (constructor; cbn; [reflexivity| | |exact H4]).
      * exact T2.
      * intros i ms rest0 [= <- <- <-]. split; [|apply app_cons_not_nil with (y := [])||destruct (ud_calls s); discriminate]. apply nth_error_Some. unfold slab_get in Eg. congruence.
      * constructor.
      * discriminate.
  - destruct (ud_phase s) as [| |i metrics rest| |] eqn:Ep; try discriminate. destruct (H3 i metrics rest eq_refl) as (Hi & Hc).
    pose proof (on_receive_phase _ _ _ _ _ _ E) as Ph. cbn [upend] in H2.
    apply on_receive_cases in E as (k & Ek & [(d & q & p & sent & g & b & _ & _ & -> & _)|[(_ & _ & ->)|(_ & ->)]]).
    + cbn [ud_phase] in Ph. constructor; cbn [ud_socks ud_phase ud_calls]; [rewrite update_length; exact H1| | |apply upd_reg; [reflexivity|exact H4]].
      * destruct Ph as [(_ & [[ms ->]| ->])|(_ & ->)]; [exact H2|constructor|exact H2].
      * intros i0 ms rest0 Hp. destruct Ph as [(_ & [[ms' ->]| ->])|(_ & ->)]; try discriminate. injection Hp as <- <- <-. split; [exact Hi|apply add_last_nil, Hc].
    + constructor; cbn; [exact H1|exact H2|discriminate|exact H4].
    + constructor; cbn; [exact H1|exact H2|discriminate|exact H4].
Qed.
Lemma urun_uinv n ms s s' : (N.of_nat n < 2048)%N -> uinv n s -> run ms s = Some s' -> uinv n s'.
Proof. intros Hn. apply (urun_inv (uinv n) (fun _ => True)); [intros s0 m s1 _ I E; eapply ustep_inv; eauto|apply all_true]. Qed.

(** ** The queues *)
Definition uhistory (i : nat) (s : udp) : list datagram := read_from i (List.concat (ud_calls s)) ++ uqueued i s.
Definition unew (i : nat) (m : umove) : list datagram := match m with UArrives j d => if j =? i then [d] else [] | _ => [] end.
Lemma read_from_app i a b : read_from i (a ++ b) = read_from i a ++ read_from i b.
Proof. apply flat_map_app. Qed.
Lemma concat_add_last {A} (x : A) l : l <> [] -> List.concat (add_last x l) = List.concat l ++ [x].
Proof.
  intros H. destruct (exists_last H) as (r & c & ->). rewrite add_last_snoc, !concat_app. cbn. rewrite !app_nil_r, app_assoc. reflexivity.
Qed.
Lemma ustep_history n i s m s' : uinv n s -> i < n -> step s m = Some s' -> uhistory i s' = uhistory i s ++ unew i m.
Proof.
  intros [H1 H2 H3 H4] Hi E. unfold uhistory, uqueued. destruct m as [j d| |xs| |a]; cbn [udp_step unew] in *.
  - destruct (j <? List.length (ud_socks s)) eqn:Hj; [|discriminate]. injection E as <-. cbn [ud_socks ud_calls]. destruct (Nat.eqb_spec j i) as [->|Hne].
    + rewrite update_eq. destruct (nth_error (ud_socks s) i) as [k|] eqn:Ek; [|apply nth_error_None in Ek; lia]. cbn. apply app_assoc.
    + rewrite update_ne by exact Hne. rewrite app_nil_r. reflexivity.
  - injection E as <-. cbn. rewrite app_nil_r. reflexivity.
  - destruct (ud_phase s); try discriminate. destruct (utake_all xs s) as [s2|] eqn:Et; [|discriminate]. injection E as <-. destruct (utake_all_same _ _ _ Et) as (A1 & _ & A3 & _ & _ & _ & A7 & _).
    cbn [with_uphase ud_socks ud_calls]. rewrite A3, app_nil_r. f_equal. destruct (nth_error (ud_socks s) i) as [k|] eqn:Ek; [|apply nth_error_None in Ek; lia]. destruct (A7 i k Ek) as (k' & -> & -> & _). reflexivity.
  - rewrite app_nil_r. destruct (ud_phase s) as [|[|t rest]| | |]; try discriminate; injection E as <-; [reflexivity|]. unfold on_utoken. destruct (t =? system_token)%N; [reflexivity|].
    destruct (slab_get (ud_socks s) (N.to_nat t)); cbn; [|reflexivity]. rewrite concat_app. cbn. rewrite app_nil_r. reflexivity.
  - rewrite app_nil_r. destruct (ud_phase s) as [| |j metrics rest| |] eqn:Ep; try discriminate. destruct (H3 j metrics rest eq_refl) as (Hj & Hc).
    apply on_receive_cases in E as (k & Ek & [(d & q & p & sent & g & b & _ & Eq & -> & _)|[(_ & _ & ->)|(_ & ->)]]); [|reflexivity|reflexivity].
    cbn [ud_socks ud_calls]. rewrite concat_add_last by exact Hc. rewrite read_from_app. cbn [read_from flat_map fst snd]. destruct (Nat.eqb_spec j i) as [->|Hne].
    + rewrite update_eq, Ek. cbn. rewrite Eq. cbn. rewrite <- app_assoc. reflexivity.
    + rewrite update_ne by exact Hne. cbn. rewrite app_nil_r. reflexivity.
Qed.
Lemma urun_history n i : (N.of_nat n < 2048)%N -> i < n -> forall ms s s', uinv n s -> run ms s = Some s' -> uhistory i s' = uhistory i s ++ flat_map (unew i) ms.
Proof.
  intros Hn Hi. induction ms as [|m ms IH]; intros s s' I E; cbn [udp_run flat_map] in *; [injection E as <-; rewrite app_nil_r; reflexivity|].
  destruct (step s m) as [s1|] eqn:E1; [|discriminate]. rewrite (IH s1 s' (ustep_inv n s m s1 Hn I E1) E), (ustep_history n i s m s1 I Hi E1), <- app_assoc. reflexivity.
Qed.

(** ** Nothing is left behind as long as no receive failed *)
Definition ulive (p : uphase) : bool := match p with UEnd | UPanic => false | _ => true end.
Definition uq (i : nat) (s : udp) : Prop := forall k, nth_error (ud_socks s) i = Some k -> so_queue k <> [] -> ulive (ud_phase s) = true ->
  so_edge k = true \/ In (N.of_nat i) (upend (ud_phase s)) \/ exists ms rest, ud_phase s = URecv i ms rest.
Lemma ustart_q i queues : uq i (udp_start queues).
Proof. intros k H Hq _. cbn in H. rewrite nth_error_map in H. destruct (nth_error queues i) as [q|]; [|discriminate]. injection H as <-. left. cbn in *. destruct q; [congruence|reflexivity]. Qed.
Lemma ustep_q n i s m s' : (N.of_nat n < 2048)%N -> uinv n s -> uq i s -> m <> UReceives UFailed -> step s m = Some s' -> uq i s'.
Proof.
  intros Hn I0 H Hm E. pose proof I0 as [H1 H2 H3 H4]. intros k Hk Hq Hl. destruct m as [j d| |xs| |a]; cbn [udp_step] in E.
  - destruct (j <? List.length (ud_socks s)); [|discriminate]. injection E as <-. cbn [ud_socks ud_phase] in *. destruct (Nat.eq_dec j i) as [->|Hne].
    + rewrite update_eq in Hk. destruct (nth_error (ud_socks s) i) as [k0|] eqn:E0; [|discriminate]. injection Hk as <-. cbn. rewrite (H4 i k0 E0), orb_true_r. auto.
    + rewrite update_ne in Hk by exact Hne. eapply H; eauto.
  - injection E as <-. eapply H; eauto.
  - destruct (ud_phase s) eqn:Ep; try discriminate. destruct (utake_all xs s) as [s2|] eqn:Et; [|discriminate]. injection E as <-. cbn [with_uphase ud_socks ud_phase upend] in *.
    destruct (utake_all_same _ _ _ Et) as (A1 & _ & _ & _ & _ & _ & A7 & A8 & A9).
    destruct (nth_error (ud_socks s) i) as [k0|] eqn:E0; [|apply nth_error_None in E0; assert (i < List.length (ud_socks s2)) by (apply nth_error_Some; congruence); lia].
    destruct (A7 i k0 E0) as (k' & K1 & K2 & _). rewrite Hk in K1. injection K1 as <-. rewrite K2 in Hq. destruct (H k0 E0 Hq) as [He|[He|(ms & rest & He)]]; [rewrite Ep; reflexivity| |rewrite Ep in He; destruct He|congruence].
    assert (W : uwaiting s (USocket i) = true) by (cbn; rewrite E0; exact He).
    destruct (so_edge k) eqn:Ee; [auto|]. right. left. assert (Hin : In (USocket i) xs).
    { destruct (in_dec (fun a b : usource => ltac:(decide equality; apply Nat.eq_dec)) (USocket i) xs) as [Hin|Hno]; [exact Hin|]. exfalso.
      assert (W' : uwaiting s2 (USocket i) = true) by (apply A9; auto). cbn in W'. rewrite Hk in W'. congruence. }
    apply (in_map utoken) in Hin. exact Hin.
  - destruct (ud_phase s) as [|[|t rest]| | |] eqn:Ep; try discriminate; injection E as <-.
    + cbn [with_uphase ud_socks ud_phase] in *. destruct (H k Hk Hq) as [He|[He|(ms & rest & He)]]; [rewrite Ep; reflexivity|auto|rewrite Ep in He; destruct He|congruence].
    + unfold on_utoken in *. destruct (N.eqb_spec t system_token) as [->|Hs]; [discriminate|]. destruct (slab_get (ud_socks s) (N.to_nat t)) eqn:Eg; [|discriminate]. cbn [ud_socks ud_phase upend] in *.
      destruct (H k Hk Hq) as [He|[He|(ms & r & He)]]; [rewrite Ep; reflexivity|auto| |congruence]. rewrite Ep in He. cbn [upend In] in He. destruct He as [->|He]; [|auto].
      right. right. exists [], rest. rewrite Nat2N.id. reflexivity.
  - destruct (ud_phase s) as [| |j metrics rest| |] eqn:Ep; try discriminate. pose proof (on_receive_phase _ _ _ _ _ _ E) as Ph.
    apply on_receive_cases in E as (k0 & Ek & [(d & q & p & sent & g & b & -> & Eq & -> & _)|[(_ & Eq & ->)|(-> & ->)]]); [| |congruence].
    + cbn [ud_socks ud_phase] in *. destruct Ph as [(_ & [[ms ->]| ->])|(Ph & _)]; [|discriminate|congruence]. destruct (Nat.eq_dec j i) as [->|Hne]; [right; right; eauto|].
      rewrite update_ne in Hk by exact Hne. destruct (H k Hk Hq) as [He|[He|(ms' & r & He)]]; [rewrite Ep; reflexivity|auto|rewrite Ep in He; auto|congruence].
    + cbn [with_uphase ud_socks ud_phase upend] in *. destruct (H k Hk Hq) as [He|[He|(ms' & r & He)]]; [rewrite Ep; reflexivity|auto|rewrite Ep in He; auto|]. assert (j = i) as -> by congruence. congruence.
Qed.

(** ** What is sent *)
Notation csend := (calls_send pf cfg now base).
Notation csend1 := (call_sends pf cfg now base).
Lemma calls_send_app : forall a c sent g b sent' kept g' b', csend a = Some (sent, g, b) -> csend1 c = Some (sent', kept, g', b') ->
  csend (a ++ [c]) = Some (sent ++ sent', (g + g')%N, (b + b')%N).
Proof.
  induction a as [|d a IH]; intros c sent g b sent' kept g' b' Ea Ec; cbn [calls_send List.app] in *.
  - injection Ea as <- <- <-. rewrite Ec. rewrite app_nil_r, !N.add_0_r. reflexivity.
  - destruct (csend1 d) as [[[[s1 k1] g1] b1]|]; [|discriminate]. destruct (csend a) as [[[s2 g2] b2]|] eqn:E; [|discriminate]. injection Ea as <- <- <-.
    rewrite (IH c s2 g2 b2 sent' kept g' b' eq_refl Ec). rewrite app_assoc, !N.add_assoc. reflexivity.
Qed.
Lemma loop_snoc {A} (parse : A -> list telemetry -> pout) : forall ps p res sent kept g b, source_loop parse ps res = Some (sent, kept, g, b) ->
  source_loop parse (ps ++ [p]) res =
    match parse p kept with
    | PPanicked => None
    | PReturn true ms => Some (sent ++ ms, [], (g + 1)%N, b)
    | PReturn false ms => Some (sent, ms, g, (b + 1)%N)
    end.
Proof.
  induction ps as [|x ps IH]; intros p res sent kept g b E; cbn [source_loop List.app] in *.
  - injection E as <- <- <- <-. destruct (parse p res) as [[] ms|]; cbn; try reflexivity. rewrite app_nil_r. reflexivity.
  - destruct (parse x res) as [[] r|]; [| |discriminate].
    + destruct (source_loop parse ps []) as [[[[s1 k1] g1] b1]|] eqn:E1; [|discriminate]. injection E as <- <- <- <-. rewrite (IH p [] s1 k1 g1 b1 E1).
      destruct (parse p k1) as [[] ms|]; [rewrite <- app_assoc; repeat f_equal; lia|repeat f_equal; lia|reflexivity].
    + destruct (source_loop parse ps r) as [[[[s1 k1] g1] b1]|] eqn:E1; [|discriminate]. injection E as <- <- <- <-. rewrite (IH p r s1 k1 g1 b1 E1).
      destruct (parse p k1) as [[] ms|]; [repeat f_equal; lia|repeat f_equal; lia|reflexivity].
Qed.
Lemma texts_snoc c i d : texts (c ++ [(i, d)]) = texts c ++ (if utf8 (received d) then [text (received d)] else []).
Proof. unfold texts. rewrite flat_map_app. cbn. rewrite app_nil_r. reflexivity. Qed.
Definition usent (s : udp) : Prop :=
  match ud_phase s with
  | UPanic => True
  | URecv i metrics rest => exists done c sent g b sent' g' b', ud_calls s = done ++ [c] /\ csend done = Some (sent, g, b) /\ csend1 c = Some (sent', metrics, g', b') /\
      ud_sent s = map ETelemetry (sent ++ sent') /\ ud_good s = (g + g')%N /\ ud_bad s = (b + b')%N
  | UEnd => exists sent g b, csend (ud_calls s) = Some (sent, g, b) /\ ud_sent s = map ETelemetry sent ++ [EShutdown] /\ ud_good s = g /\ ud_bad s = b
  | _ => exists sent g b, csend (ud_calls s) = Some (sent, g, b) /\ ud_sent s = map ETelemetry sent /\ ud_good s = g /\ ud_bad s = b
  end.
Lemma ustep_sent s m s' : usent s -> step s m = Some s' -> usent s'.
Proof.
  intros H E. unfold usent in *. destruct m as [j d| |xs| |a]; cbn [udp_step] in E.
  - destruct (j <? List.length (ud_socks s)); [|discriminate]. injection E as <-. exact H.
  - injection E as <-. exact H.
  - destruct (ud_phase s); try discriminate. destruct (utake_all xs s) as [s2|] eqn:Et; [|discriminate]. injection E as <-. cbn [with_uphase ud_phase ud_calls ud_sent ud_good ud_bad]. destruct (utake_all_same _ _ _ Et) as (_ & _ & -> & -> & -> & -> & _). exact H.
  - destruct (ud_phase s) as [|[|t rest]| | |]; try discriminate; injection E as <-; [exact H|]. destruct H as (sent & g & b & H1 & H2 & H3 & H4).
    unfold on_utoken. destruct (t =? system_token)%N.
    + cbn. exists sent, g, b. rewrite H2. auto.
    + destruct (slab_get (ud_socks s) (N.to_nat t)); cbn; [|exact I]. exists (ud_calls s), [], sent, g, b, [], 0%N, 0%N. rewrite app_nil_r, !N.add_0_r. auto 6.
  - destruct (ud_phase s) as [| |i metrics rest| |]; try discriminate. destruct H as (done & c & sent & g & b & sent' & g' & b' & H1 & H2 & H3 & H4 & H5 & H6).
    assert (Out : exists sent g b, csend (ud_calls s) = Some (sent, g, b) /\ ud_sent s = map ETelemetry sent /\ ud_good s = g /\ ud_bad s = b).
    { exists (sent ++ sent'), (g + g')%N, (b + b')%N. rewrite H1. split; [apply (calls_send_app _ _ _ _ _ _ metrics); assumption|]. auto. }
    apply on_receive_cases in E as (k & Ek & [(d & q & p & sn & gg & bb & _ & _ & -> & [(Eu & -> & -> & -> & ->)|(Eu & out & Eo & Hout)])|[(_ & _ & ->)|(_ & ->)]]); [..|exact Out|exact Out]; cbn [ud_phase ud_calls ud_sent ud_good ud_bad]; rewrite H1, add_last_snoc.
    + exists done, (c ++ [(i, d)]), sent, g, b, sent', g', b'. split; [reflexivity|]. split; [exact H2|]. split; [|auto]. unfold call_sends. rewrite texts_snoc, Eu, app_nil_r. exact H3.
    + assert (L : csend1 (c ++ [(i, d)]) = match out with PPanicked => None | PReturn true ms => Some (sent' ++ ms, [], (g' + 1)%N, b') | PReturn false ms => Some (sent', ms, g', (b' + 1)%N) end).
      { unfold call_sends. rewrite texts_snoc, Eu. rewrite (loop_snoc _ _ _ _ _ _ _ _ H3). rewrite Eo. reflexivity. }
      destruct out as [[] ms|]; destruct Hout as (-> & -> & -> & ->); [| |exact I].
      * exists done, (c ++ [(i, d)]), sent, g, b, (sent' ++ ms), (g' + 1)%N, b'. split; [reflexivity|]. split; [exact H2|]. split; [exact L|]. rewrite H4, H5, H6, <- map_app, app_assoc. repeat split. lia.
      * exists done, (c ++ [(i, d)]), sent, g, b, sent', g', (b' + 1)%N. split; [reflexivity|]. split; [exact H2|]. split; [exact L|]. rewrite H5, H6. repeat split; [assumption|lia].
Qed.
Lemma urun_sent ms s s' : usent s -> run ms s = Some s' -> usent s'.
Proof. apply (urun_inv usent (fun _ => True)); [intros; eapply ustep_sent; eauto|apply all_true]. Qed.
Lemma usent_out s : usent s -> ud_phase s <> UPanic -> exists sent g b, csend (ud_calls s) = Some (sent, g, b) /\
  ud_sent s = map ETelemetry sent ++ (match ud_phase s with UEnd => [EShutdown] | _ => [] end) /\ ud_good s = g /\ ud_bad s = b.
Proof.
  unfold usent. intros H Hp. destruct (ud_phase s) as [| |i metrics rest| |]; [| | |exact H|congruence].
  - destruct H as (sent & g & b & H1 & H2 & H3). exists sent, g, b. rewrite app_nil_r. auto.
  - destruct H as (sent & g & b & H1 & H2 & H3). exists sent, g, b. rewrite app_nil_r. auto.
  - destruct H as (done & c & sent & g & b & sent' & g' & b' & H1 & H2 & H3 & H4 & H5 & H6). exists (sent ++ sent'), (g + g')%N, (b + b')%N. rewrite app_nil_r, H1.
    split; [apply (calls_send_app _ _ _ _ _ _ metrics); assumption|]. auto.
Qed.

(** ** No panic *)
Lemma statsd_total : cfg_ok cfg -> forall src res, parse_statsd pf cfg now base src res <> PPanicked.
Proof. intros Hc src res. unfold parse_statsd. apply statsd_loop_total, Hc. Qed.
Lemma ustep_safe n s m s' : (N.of_nat n < 2048)%N -> cfg_ok cfg -> uinv n s -> ud_phase s <> UPanic -> step s m = Some s' -> ud_phase s' <> UPanic.
Proof.
  intros Hn Hc [H1 H2 H3 H4] Hp E. destruct m as [j d| |xs| |a]; cbn [udp_step] in E.
  - destruct (j <? List.length (ud_socks s)); [|discriminate]. injection E as <-. exact Hp.
  - injection E as <-. exact Hp.
  - destruct (ud_phase s); try discriminate. destruct (utake_all xs s) as [s2|] eqn:Et; [|discriminate]. injection E as <-. discriminate.
  - destruct (ud_phase s) as [|[|t rest]| | |] eqn:Ep; try discriminate; injection E as <-; [discriminate|]. cbn [upend] in H2. inversion H2 as [|? ? T1 T2]; subst.
    unfold on_utoken. destruct (N.eqb_spec t system_token) as [Es|Es]; [discriminate|]. destruct T1 as [T1|(i & -> & Hi)]; [congruence|]. unfold slab_get. rewrite Nat2N.id.
    destruct (nth_error (ud_socks s) i) eqn:Ei; [discriminate|]. apply nth_error_None in Ei. lia.
  - destruct (ud_phase s) as [| |i metrics rest| |] eqn:Ep; try discriminate.
    apply on_receive_cases in E as (k & Ek & [(d & q & p & sn & gg & bb & _ & _ & -> & [(Eu & -> & _)|(Eu & out & Eo & Hout)])|[(_ & _ & ->)|(_ & ->)]]); try discriminate.
    cbn. destruct out as [[] ms|]; destruct Hout as (-> & _); try discriminate. exfalso. eapply statsd_total; eauto.
Qed.
Lemma urun_safe n : (N.of_nat n < 2048)%N -> cfg_ok cfg -> forall ms s s', uinv n s -> ud_phase s <> UPanic -> run ms s = Some s' -> ud_phase s' <> UPanic.
Proof.
  intros Hn Hc. induction ms as [|m ms IH]; intros s s' I Hp E; cbn [udp_run] in E; [injection E as <-; exact Hp|]. destruct (step s m) as [s1|] eqn:E1; [|discriminate].
  apply (IH s1 s'); [eapply ustep_inv; eauto|eapply ustep_safe; eauto|exact E].
Qed.

(** ** What the loop does if left alone *)
Definition urunning (s : udp) : Prop := ulive (ud_phase s) = true.
Lemma udrain : cfg_ok cfg -> forall q i metrics rest s k, ud_phase s = URecv i metrics rest -> nth_error (ud_socks s) i = Some k -> so_queue k = q ->
  exists ms s', Forall of_uloop ms /\ no_ufailure ms /\ run ms s = Some s' /\ ud_phase s' = UEvents rest /\ (forall x, uwaiting s' x = uwaiting s x).
Proof.
  intros Hc. induction q as [|d q IH]; intros i metrics rest s k Ep Ek Eq.
  - exists [UReceives UBlocked], (with_uphase s (UEvents rest)). split; [repeat constructor|]. split; [intros [H|[]]; discriminate|]. cbn [udp_run udp_step]. rewrite Ep. unfold on_receive. rewrite Ek, Eq. repeat split; auto.
  - assert (G : exists s1 ms, step s (UReceives UData) = Some s1 /\ ud_phase s1 = URecv i ms rest /\ ud_socks s1 = update i sock_take (ud_socks s) /\ ud_signal s1 = ud_signal s).
    { cbn [udp_step]. rewrite Ep. unfold on_receive. rewrite Ek, Eq. destruct (utf8 (received d)); [|do 2 eexists; repeat split].
      destruct (parse_statsd pf cfg now base (text (received d)) metrics) as [[] ms|] eqn:Eo; [do 2 eexists; repeat split|do 2 eexists; repeat split|exfalso; exact (statsd_total Hc _ _ Eo)]. }
    destruct G as (s1 & ms1 & G1 & G2 & G3 & G4). destruct (IH i ms1 rest s1 (sock_take k) G2) as (ms & s' & F1 & F2 & F3 & F4 & F5).
    + rewrite G3, update_eq, Ek. reflexivity.
    + cbn. rewrite Eq. reflexivity.
    + exists (UReceives UData :: ms), s'. split; [constructor; [exact I|exact F1]|]. split; [intros [H|H]; [discriminate|exact (F2 H)]|]. split; [cbn [udp_run]; rewrite G1; exact F3|]. split; [exact F4|].
      intros x. rewrite F5. destruct x as [|j]; cbn; [exact G4|]. rewrite G3. destruct (Nat.eq_dec i j) as [<-|Hne]; [rewrite update_eq, Ek; reflexivity|rewrite update_ne by exact Hne; reflexivity].
Qed.
Lemma ugo n : (N.of_nat n < 2048)%N -> cfg_ok cfg -> forall l s, uinv n s -> ud_phase s = UEvents l ->
  exists ms s', Forall of_uloop ms /\ no_ufailure ms /\ run ms s = Some s' /\
    ((ud_phase s' = UPoll /\ ~ In system_token l /\ (forall x, uwaiting s' x = uwaiting s x)) \/ (ud_phase s' = UEnd /\ In system_token l)).
Proof.
  intros Hn Hc. induction l as [|t l IH]; intros s Iv Ep.
  - exists [UNext], (with_uphase s UPoll). split; [repeat constructor|]. split; [intros [H|[]]; discriminate|]. cbn [udp_run udp_step]. rewrite Ep. split; [reflexivity|]. left. repeat split; auto.
  - assert (Step : step s UNext = Some (on_utoken s t l)) by (cbn; rewrite Ep; reflexivity). pose proof (ustep_inv n s _ _ Hn Iv Step) as I1. pose proof Iv as [H1 H2 H3 H4]. rewrite Ep in H2. cbn [upend] in H2. inversion H2 as [|? ? T1 T2]; subst.
    unfold on_utoken in Step, I1. destruct (N.eqb_spec t system_token) as [Es|Es].
    + exists [UNext], (mkUdp (ud_socks s) (ud_signal s) UEnd (ud_calls s) (ud_sent s ++ [EShutdown]) (ud_good s) (ud_bad s)). split; [constructor; [exact I|constructor]|]. split; [intros [H|[]]; discriminate|]. split; [cbn [udp_run]; rewrite Step; reflexivity|].
      right. split; [reflexivity|left; exact Es].
    + destruct T1 as [T1|(i & -> & Hi)]; [congruence|]. unfold slab_get in Step, I1. rewrite Nat2N.id in Step, I1. destruct (nth_error (ud_socks s) i) as [k|] eqn:Ek; [|apply nth_error_None in Ek; lia].
      set (s1 := mkUdp (ud_socks s) (ud_signal s) (URecv i [] l) (ud_calls s ++ [[]]) (ud_sent s) (ud_good s) (ud_bad s)) in *.
      destruct (udrain Hc (so_queue k) i [] l s1 k eq_refl Ek eq_refl) as (ms1 & s2 & D1 & D2 & D3 & D4 & D5).
      destruct (IH s2 (urun_uinv _ ms1 s1 s2 Hn I1 D3) D4) as (ms & s' & F1 & F2 & F3 & F4).
      exists (UNext :: ms1 ++ ms), s'. split; [constructor; [exact I|apply Forall_app; split; assumption]|]. split; [intros [H|H]; [discriminate|apply in_app_or in H as [H|H]; [exact (D2 H)|exact (F2 H)]]|].
      split; [cbn [udp_run]; rewrite Step, urun_app, D3; exact F3|]. destruct F4 as [(P1 & P2 & P3)|(P1 & P2)]; [left|right].
      * split; [exact P1|]. split; [intros [Hx|Hx]; [congruence|exact (P2 Hx)]|]. intros x. rewrite P3, D5. destruct x; reflexivity.
      * split; [exact P1|right; exact P2].
Qed.
Lemma uto_poll n s : (N.of_nat n < 2048)%N -> cfg_ok cfg -> uinv n s -> urunning s ->
  exists ms s', Forall of_uloop ms /\ no_ufailure ms /\ run ms s = Some s' /\
    ((ud_phase s' = UPoll /\ ~ In system_token (upend (ud_phase s)) /\ (forall x, uwaiting s' x = uwaiting s x)) \/ (ud_phase s' = UEnd /\ In system_token (upend (ud_phase s)))).
Proof.
  intros Hn Hc Iv R. unfold urunning in R. destruct (ud_phase s) as [|l|i metrics rest| |] eqn:Ep; try discriminate; cbn [upend] in *.
  - exists [], s. split; [constructor|]. split; [intros []|]. split; [reflexivity|]. left. rewrite Ep. repeat split; auto.
  - apply (ugo n Hn Hc l s Iv Ep).
  - destruct (ui_at n s Iv i metrics rest Ep) as (Hi & _). pose proof (ui_len n s Iv) as L. destruct (nth_error (ud_socks s) i) as [k|] eqn:Ek; [|apply nth_error_None in Ek; lia].
    destruct (udrain Hc (so_queue k) i metrics rest s k Ep Ek eq_refl) as (ms1 & s1 & D1 & D2 & D3 & D4 & D5).
    destruct (ugo n Hn Hc rest s1 (urun_uinv n ms1 s s1 Hn Iv D3) D4) as (ms & s' & F1 & F2 & F3 & F4). exists (ms1 ++ ms), s'. split; [apply Forall_app; auto|].
    split; [intros H; apply in_app_or in H as [H|H]; auto|]. split; [rewrite urun_app, D3; exact F3|]. destruct F4 as [(P1 & P2 & P3)|F4]; [left|right; exact F4].
    split; [exact P1|]. split; [exact P2|]. intros x. rewrite P3. apply D5.
Qed.
Lemma uto_idle n s : (N.of_nat n < 2048)%N -> cfg_ok cfg -> uinv n s -> urunning s -> ud_signal s = false -> ~ In system_token (upend (ud_phase s)) ->
  exists ms s', Forall of_uloop ms /\ no_ufailure ms /\ run ms s = Some s' /\ uidle s'.
Proof.
  intros Hn Hc Iv R Hg Hs. destruct (uto_poll n s Hn Hc Iv R) as (ms & s1 & F1 & F2 & F3 & [(P1 & _ & P3)|(_ & P)]); [|contradiction].
  pose proof (urun_uinv n ms s s1 Hn Iv F3) as I1. pose proof (ui_len n s1 I1) as L.
  assert (V : forall i, uwaiting s1 (USocket i) = true -> i < n) by (intros i W; cbn in W; destruct (nth_error (ud_socks s1) i) eqn:Ei; [|discriminate]; rewrite <- L; apply nth_error_Some; congruence).
  assert (S0 : uwaiting s1 USystem = false) by (rewrite P3; exact Hg).
  set (xs := filter (uwaiting s1) (map USocket (seq 0 n))).
  assert (N : NoDup xs). { apply NoDup_filter. apply FinFun.Injective_map_NoDup; [intros a b [= ->]; reflexivity|apply seq_NoDup]. }
  destruct (utake_all_some xs s1 N) as (s2 & E2); [intros x Hx; apply filter_In in Hx; tauto|].
  destruct (utake_all_same _ _ _ E2) as (_ & _ & _ & _ & _ & _ & _ & _ & T).
  assert (W : forall y, uwaiting s2 y = false).
  { intros y. destruct (uwaiting s2 y) eqn:Wy; [|reflexivity]. exfalso. apply T in Wy as [Wy Hno]. destruct y as [|i]; [congruence|]. apply Hno. apply filter_In. split; [|exact Wy]. apply in_map, in_seq. apply V in Wy. lia. }
  set (s3 := with_uphase s2 (UEvents (map utoken xs))).
  assert (E3 : step s1 (UPolls xs) = Some s3) by (cbn [udp_step]; rewrite P1, E2; reflexivity).
  assert (Nos : ~ In system_token (map utoken xs)).
  { intros Hin. apply in_map_iff in Hin as (x & Hx & Hin). apply filter_In in Hin as [Hin Wx]. destruct x as [|i]; [congruence|]. apply V in Wx. cbn in Hx. unfold system_token in Hx. lia. }
  destruct (ugo n Hn Hc _ s3 (ustep_inv n s1 _ s3 Hn I1 E3) eq_refl) as (ms4 & s4 & G1 & G2 & G3 & [(Q1 & Q2 & Q3)|(_ & Q1)]); [|contradiction].
  exists (ms ++ UPolls xs :: ms4), s4. split; [apply Forall_app; split; [exact F1|constructor; [exact I|exact G1]]|].
  split; [intros H; apply in_app_or in H as [H|[H|H]]; [auto|discriminate|auto]|]. split; [rewrite urun_app, F3; cbn [udp_run]; rewrite E3; exact G3|].
  split; [exact Q1|]. intros x. rewrite Q3. unfold s3. destruct x as [|i]; [exact (W USystem)|exact (W (USocket i))].
Qed.
Lemma uto_end n s : (N.of_nat n < 2048)%N -> cfg_ok cfg -> uinv n s -> urunning s -> ud_signal s = true \/ In system_token (upend (ud_phase s)) ->
  exists ms s', Forall of_uloop ms /\ run ms s = Some s' /\ ud_phase s' = UEnd.
Proof.
  intros Hn Hc Iv R Hg. destruct (uto_poll n s Hn Hc Iv R) as (ms & s1 & F1 & F2 & F3 & [(P1 & P2 & P3)|(P & _)]); [|eauto].
  destruct Hg as [Hg|Hg]; [|contradiction]. pose proof (urun_uinv n ms s s1 Hn Iv F3) as I1. assert (W : uwaiting s1 USystem = true) by (rewrite P3; exact Hg).
  assert (E3 : step s1 (UPolls [USystem]) = Some (with_uphase (utake_event s1 USystem) (UEvents [system_token]))) by (cbn [udp_step]; rewrite P1; cbn [utake_all]; rewrite W; reflexivity).
  destruct (ugo n Hn Hc [system_token] _ (ustep_inv n s1 _ _ Hn I1 E3) eq_refl) as (ms4 & s4 & G1 & G2 & G3 & [(_ & Qn & _)|(Qe & _)]); [exfalso; apply Qn; left; reflexivity|].
  exists (ms ++ UPolls [USystem] :: ms4), s4. split; [apply Forall_app; split; [exact F1|constructor; [exact I|exact G1]]|]. split; [|exact Qe]. rewrite urun_app, F3. cbn [udp_run]. rewrite E3. exact G3.
Qed.

(** ** The signal *)
Definition uquiet s := ud_signal s = false /\ ~ In system_token (upend (ud_phase s)) /\ ud_phase s <> UEnd.
Definition utold s := ud_signal s = true \/ In system_token (upend (ud_phase s)) \/ ulive (ud_phase s) = false.
Lemma ustep_quiet n s m s' : (N.of_nat n < 2048)%N -> uinv n s -> m <> USignalled -> uquiet s -> step s m = Some s' -> uquiet s'.
Proof.
  intros Hn Iv Hm (Q1 & Q2 & Q3) E. unfold uquiet. destruct m as [j d| |xs| |a]; cbn [udp_step] in E; [|congruence|..].
  - destruct (j <? List.length (ud_socks s)); [|discriminate]. injection E as <-. auto.
  - destruct (ud_phase s) eqn:Ep; try discriminate. destruct (utake_all xs s) as [s2|] eqn:Et; [|discriminate]. injection E as <-. cbn [with_uphase ud_signal ud_phase upend].
    destruct (utake_all_same _ _ _ Et) as (_ & _ & _ & _ & _ & _ & _ & A8 & A9). split; [|split; [|discriminate]].
    + destruct (ud_signal s2) eqn:E2; [|reflexivity]. assert (W : uwaiting s2 USystem = true) by exact E2. apply A9 in W as [W _]. cbn in W. congruence.
    + intros Hin. apply in_map_iff in Hin as (x & Hx & Hin). apply A8 in Hin. destruct x as [|i]; [cbn in Hin; congruence|]. cbn in Hin, Hx. destruct (nth_error (ud_socks s) i) eqn:Ei; [|discriminate].
      assert (i < n) by (rewrite <- (ui_len n s Iv); apply nth_error_Some; congruence). unfold system_token in Hx. lia.
  - destruct (ud_phase s) as [|[|t rest]| | |] eqn:Ep; try discriminate; injection E as <-; [cbn; auto; split; [exact Q1|split; [intros []|discriminate]]|]. cbn [upend In] in Q2.
    unfold on_utoken. destruct (N.eqb_spec t system_token) as [Es|Es]; [exfalso; apply Q2; left; exact Es|]. destruct (slab_get (ud_socks s) (N.to_nat t)); cbn; (split; [exact Q1|split; [tauto|discriminate]]).
  - destruct (ud_phase s) as [| |i metrics rest| |] eqn:Ep; try discriminate. pose proof (on_receive_phase _ _ _ _ _ _ E) as Ph.
    apply on_receive_cases in E as (k & _ & [(d & q & p & sn & gg & bb & _ & _ & -> & _)|[(_ & _ & ->)|(_ & ->)]]); cbn [ud_signal ud_phase with_uphase upend] in *; (split; [exact Q1|]); [|split; [exact Q2|discriminate]..].
    destruct Ph as [(_ & [[ms ->]| ->])|(_ & ->)]; cbn; (split; [tauto|discriminate]).
Qed.
Lemma ustep_told s m s' : utold s -> step s m = Some s' -> utold s'.
Proof.
  intros H E. unfold utold in *. destruct m as [j d| |xs| |a]; cbn [udp_step] in E.
  - destruct (j <? List.length (ud_socks s)); [|discriminate]. injection E as <-. exact H.
  - injection E as <-. left. reflexivity.
  - destruct (ud_phase s) eqn:Ep; try discriminate. destruct (utake_all xs s) as [s2|] eqn:Et; [|discriminate]. injection E as <-. cbn [with_uphase ud_signal ud_phase upend].
    destruct (utake_all_same _ _ _ Et) as (_ & _ & _ & _ & _ & _ & _ & _ & A9). destruct H as [H|[[]|H]]; [|discriminate].
    destruct (in_dec (fun a b : usource => ltac:(decide equality; apply Nat.eq_dec)) USystem xs) as [Hin|Hno]; [right; left; apply (in_map utoken) in Hin; exact Hin|].
    left. assert (W : uwaiting s2 USystem = true) by (apply A9; auto). exact W.
  - destruct (ud_phase s) as [|[|t rest]| | |] eqn:Ep; try discriminate; injection E as <-; [cbn in *; destruct H as [H|[[]|H]]; [auto|discriminate]|].
    unfold on_utoken. destruct (N.eqb_spec t system_token) as [Es|Es]; [right; right; reflexivity|]. destruct (slab_get (ud_socks s) (N.to_nat t)); cbn in *; [|auto]. destruct H as [H|[[H|H]|H]]; [auto|congruence|auto|discriminate].
  - destruct (ud_phase s) as [| |i metrics rest| |] eqn:Ep; try discriminate. pose proof (on_receive_phase _ _ _ _ _ _ E) as Ph.
    apply on_receive_cases in E as (k & _ & [(d & q & p & sn & gg & bb & _ & _ & -> & _)|[(_ & _ & ->)|(_ & ->)]]); cbn [ud_signal ud_phase with_uphase upend ulive] in *; [|exact H..].
    destruct Ph as [(_ & [[ms ->]| ->])|(_ & ->)]; cbn in *; tauto.
Qed.
Lemma urun_quiet n : (N.of_nat n < 2048)%N -> forall ms s s', uinv n s -> uquiet s -> ~ In USignalled ms -> run ms s = Some s' -> uquiet s'.
Proof.
  intros Hn. induction ms as [|m ms IH]; intros s s' Iv Hq Hm E; cbn [udp_run] in E; [injection E as <-; exact Hq|]. destruct (step s m) as [s1|] eqn:E1; [|discriminate].
  apply (IH s1 s'); [eapply ustep_inv; eauto|eapply ustep_quiet; eauto; intros ->; apply Hm; left; reflexivity|intros Hin; apply Hm; right; exact Hin|exact E].
Qed.
Lemma urun_told : forall ms s s', In USignalled ms -> run ms s = Some s' -> utold s'.
Proof.
  induction ms as [|m ms IH]; intros s s' Hin E; cbn [udp_run] in E; [destruct Hin|]. destruct (step s m) as [s1|] eqn:E1; [|discriminate]. destruct Hin as [->|Hin]; [|eapply IH; eauto].
  apply (urun_inv utold (fun _ => True)) with (ms := ms) (s := s1); [intros; eapply ustep_told; eauto|apply all_true| |exact E]. cbn in E1. injection E1 as <-. left. reflexivity.
Qed.
Lemma urun_q n i : (N.of_nat n < 2048)%N -> forall ms s s', uinv n s -> uq i s -> no_ufailure ms -> run ms s = Some s' -> uq i s'.
Proof.
  intros Hn. induction ms as [|m ms IH]; intros s s' Iv Hq Hm E; cbn [udp_run] in E; [injection E as <-; exact Hq|]. destruct (step s m) as [s1|] eqn:E1; [|discriminate].
  apply (IH s1 s'); [eapply ustep_inv; eauto|eapply ustep_q; eauto; intros ->; apply Hm; left; reflexivity|intros Hin; apply Hm; right; exact Hin|exact E].
Qed.
End P.
