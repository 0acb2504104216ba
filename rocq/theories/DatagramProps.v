(** * Properties C117-C119: the sockets of the statsd source. *)
From Verif Require Import Base BaseFacts TelemetryModel QExample TelemetryProps ParseModel ParseSpec ParseProofs ParseProps Utf8 RuntimeModel AcceptModel AcceptProofs DatagramModel DatagramSpec DatagramProofs.
Open Scope string_scope. Open Scope list_scope. Open Scope nat_scope.

(** ** C117: every datagram the kernel queued is parsed once, in order. *)
(** What was received from a socket, and then what is queued on it, is what came to it. *)
Theorem C117_in_order : forall (Q : QLib) pf cfg now base queues ms s i, (N.of_nat (List.length queues) < 2048)%N -> i < List.length queues ->
  udp_run pf cfg now base ms (udp_start queues) = Some s ->
  read_from i (List.concat (ud_calls s)) ++ uqueued i s = came i queues ms.
Proof.
  intros Q pf cfg now base queues ms s i Hn Hi E. pose proof (urun_history pf cfg now base _ i Hn Hi ms _ s (ustart_inv queues) E) as H. unfold uhistory in H. rewrite H. unfold came. f_equal.
  cbn [udp_start ud_calls List.concat read_from flat_map List.app]. unfold uqueued. cbn [udp_start ud_socks]. rewrite nth_error_map. destruct (nth_error queues i) as [q|] eqn:Eq; [|apply nth_error_None in Eq; lia].
  cbn. symmetry. apply nth_error_nth. exact Eq.
Qed.
(** What the source sends is what parsing the received datagrams gives, call by call of
    its handler (a call ends when the socket is empty or fails), in order; the
    counters count them; nothing else is sent but one Shutdown at the end. *)
Theorem C117_sends_what_it_parses : forall (Q : QLib) pf cfg now base queues ms s, (N.of_nat (List.length queues) < 2048)%N -> cfg_ok cfg ->
  udp_run pf cfg now base ms (udp_start queues) = Some s ->
  exists sent g b, calls_send pf cfg now base (ud_calls s) = Some (sent, g, b) /\
    ud_sent s = map ETelemetry sent ++ (match ud_phase s with UEnd => [EShutdown] | _ => [] end) /\ ud_good s = g /\ ud_bad s = b.
Proof.
  intros Q pf cfg now base queues ms s Hn Hc E. apply (usent_out pf cfg now base s).
  - apply (urun_sent pf cfg now base ms (udp_start queues) s); [|exact E]. cbn. exists [], 0%N, 0%N. auto.
  - apply (urun_safe pf cfg now base _ Hn Hc ms (udp_start queues) s); [apply ustart_inv|discriminate|exact E].
Qed.
(** If no datagram is bad after some good lines (C30 tells what happens then), that is:
    the points of the good datagrams, whichever socket they came to. *)
Theorem C117_sends_the_points : forall (Q : QLib) pf cfg now base queues ms s, (N.of_nat (List.length queues) < 2048)%N -> cfg_ok cfg ->
  udp_run pf cfg now base ms (udp_start queues) = Some s ->
  let parse := parse_statsd pf cfg now base in
  let got := texts (List.concat (ud_calls s)) in
  Forall (rejects_clean parse) got ->
  ud_sent s = map ETelemetry (accepted_points parse got) ++ (match ud_phase s with UEnd => [EShutdown] | _ => [] end) /\
  ud_good s = N.of_nat (List.length (filter (accepted parse) got)) /\ (ud_good s + ud_bad s)%N = N.of_nat (List.length got).
Proof.
  intros Q pf cfg now base queues ms s Hn Hc E parse got Hr. destruct (C117_sends_what_it_parses Q pf cfg now base queues ms s Hn Hc E) as (sent & g & b & H1 & H2 & H3 & H4). rewrite H2, H3, H4.
  assert (G : forall calls sent g b, Forall (rejects_clean parse) (texts (List.concat calls)) -> calls_send pf cfg now base calls = Some (sent, g, b) ->
     sent = accepted_points parse (texts (List.concat calls)) /\ g = N.of_nat (List.length (filter (accepted parse) (texts (List.concat calls)))) /\ (g + b)%N = N.of_nat (List.length (texts (List.concat calls)))).
  { clear - Hc. induction calls as [|c calls IH]; intros sent g b F Ec; cbn [calls_send List.concat] in *; [injection Ec as <- <- <-; auto|].
    assert (Et : texts (c ++ List.concat calls) = texts c ++ texts (List.concat calls)) by apply flat_map_app. rewrite Et in F |- *. apply Forall_app in F as [F1 F2].
    destruct (source_loop_clean parse (texts c) (statsd_total pf cfg now base Hc) F1) as (g1 & b1 & L1 & L2 & L3). unfold call_sends in Ec. fold parse in Ec. rewrite L1 in Ec.
    destruct (calls_send pf cfg now base calls) as [[[s2 g2] b2]|] eqn:E2; [|discriminate]. injection Ec as <- <- <-. destruct (IH s2 g2 b2 F2 eq_refl) as (I1 & I2 & I3). rewrite I1.
    unfold accepted_points. rewrite flat_map_app, filter_app, !app_length. repeat split; lia. }
  destruct (G (ud_calls s) sent g b Hr H1) as (-> & -> & G3). auto.
Qed.
(** Edge triggering leaves nothing behind: when the loop waits and poll has nothing to
    report, everything that came has been received.  Missing: a receive that failed. *)
Theorem C117_none_left_waiting_partial : forall (Q : QLib) pf cfg now base queues ms s i, (N.of_nat (List.length queues) < 2048)%N -> i < List.length queues ->
  udp_run pf cfg now base ms (udp_start queues) = Some s -> no_ufailure ms -> uidle s -> read_from i (List.concat (ud_calls s)) = came i queues ms.
Proof.
  intros Q pf cfg now base queues ms s i Hn Hi E Nf [Hp Hw]. rewrite <- (C117_in_order Q pf cfg now base queues ms s i Hn Hi E).
  pose proof (urun_q pf cfg now base _ i Hn ms _ s (ustart_inv queues) (ustart_q i queues) Nf E) as Hq. unfold uqueued. destruct (nth_error (ud_socks s) i) as [k|] eqn:Ek; [|rewrite app_nil_r; reflexivity].
  destruct (so_queue k) as [|d q] eqn:Eq; [rewrite app_nil_r; reflexivity|]. exfalso.
  destruct (Hq k Ek) as [He|[He|(m & r & He)]]; [congruence|rewrite Hp; reflexivity| |rewrite Hp in He; destruct He|congruence].
  specialize (Hw (USocket i)). cbn in Hw. rewrite Ek in Hw. congruence.
Qed.
(** And the loop gets there on its own, unless it was told to stop. *)
Theorem C117_gets_idle : forall (Q : QLib) pf cfg now base queues ms s, (N.of_nat (List.length queues) < 2048)%N -> cfg_ok cfg ->
  udp_run pf cfg now base ms (udp_start queues) = Some s -> ~ In USignalled ms ->
  exists ms' s', Forall of_uloop ms' /\ no_ufailure ms' /\ udp_run pf cfg now base ms' s = Some s' /\ uidle s'.
Proof.
  intros Q pf cfg now base queues ms s Hn Hc E Hs. pose proof (urun_uinv pf cfg now base _ ms _ s Hn (ustart_inv queues) E) as Iv.
  destruct (urun_quiet pf cfg now base _ Hn ms _ s (ustart_inv queues)) as (Q1 & Q2 & Q3); [split; [reflexivity|split; [intros []|discriminate]]|exact Hs|exact E|].
  assert (Hp : ud_phase s <> UPanic) by (apply (urun_safe pf cfg now base _ Hn Hc ms (udp_start queues) s); [apply ustart_inv|discriminate|exact E]).
  apply (uto_idle pf cfg now base _ s Hn Hc Iv); [|exact Q1|exact Q2]. unfold urunning. destruct (ud_phase s); try reflexivity; congruence.
Qed.
(** A failed receive does not lose the socket, whatever the log says: with the next
    datagram that arrives, all that is queued is received. *)
Theorem C117_next_arrival_recovers : forall (Q : QLib) pf cfg now base queues ms s i d s1, (N.of_nat (List.length queues) < 2048)%N -> cfg_ok cfg -> i < List.length queues ->
  udp_run pf cfg now base ms (udp_start queues) = Some s -> ~ In USignalled ms -> udp_step pf cfg now base s (UArrives i d) = Some s1 ->
  exists ms' s', Forall of_uloop ms' /\ no_ufailure ms' /\ udp_run pf cfg now base ms' s1 = Some s' /\ uidle s' /\
    read_from i (List.concat (ud_calls s')) = came i queues ms ++ [d].
Proof.
  intros Q pf cfg now base queues ms s i d s1 Hn Hc Hi E Hs E1.
  assert (E' : udp_run pf cfg now base (ms ++ [UArrives i d]) (udp_start queues) = Some s1) by (rewrite urun_app, E; cbn [udp_run]; rewrite E1; reflexivity).
  destruct (C117_gets_idle Q pf cfg now base queues _ s1 Hn Hc E') as (ms' & s' & F1 & F2 & F3 & F4); [intros Hin; apply in_app_or in Hin as [Hin|[Hin|[]]]; [auto|discriminate]|].
  exists ms', s'. split; [exact F1|]. split; [exact F2|]. split; [exact F3|]. split; [exact F4|].
  assert (E2 : udp_run pf cfg now base ((ms ++ [UArrives i d]) ++ ms') (udp_start queues) = Some s') by (rewrite urun_app, E'; exact F3).
  pose proof (urun_uinv pf cfg now base _ _ _ s1 Hn (ustart_inv queues) E') as Iv. pose proof (urun_uinv pf cfg now base _ _ _ s Hn (ustart_inv queues) E) as Iv0.
  assert (Hq1 : uq i s1).
  { intros k Hk _ _. left. cbn [udp_step] in E1. destruct (i <? List.length (ud_socks s)); [|discriminate]. injection E1 as <-. cbn [ud_socks] in Hk. rewrite update_eq in Hk.
    destruct (nth_error (ud_socks s) i) as [k0|] eqn:E0; [|discriminate]. injection Hk as <-. cbn. rewrite (ui_reg _ s Iv0 i k0 E0). apply orb_true_r. }
  pose proof (urun_q pf cfg now base _ i Hn ms' s1 s' Iv Hq1 F2 F3) as Hq. pose proof (C117_in_order Q pf cfg now base queues _ s' i Hn Hi E2) as H.
  assert (Hc' : came i queues ((ms ++ [UArrives i d]) ++ ms') = came i queues ms ++ [d]).
  { unfold came. rewrite !flat_map_app. cbn. rewrite Nat.eqb_refl. cbn. rewrite <- !app_assoc. f_equal. f_equal.
    assert (N : flat_map (fun m => match m with UArrives j d0 => if j =? i then [d0] else [] | _ => [] end) ms' = []) by (clear - F1; induction F1 as [|m l Hm _ IH]; [reflexivity|]; cbn; rewrite IH; destruct m; cbn in Hm; [contradiction|reflexivity..]). rewrite N. reflexivity. }
  rewrite Hc' in H. rewrite <- H. destruct F4 as [Hp Hw]. unfold uqueued. destruct (nth_error (ud_socks s') i) as [k|] eqn:Ek; [|rewrite app_nil_r; reflexivity].
  destruct (so_queue k) as [|d0 q] eqn:Eq; [rewrite app_nil_r; reflexivity|]. exfalso.
  destruct (Hq k Ek) as [He|[He|(m & r & He)]]; [congruence|rewrite Hp; reflexivity| |rewrite Hp in He; destruct He|congruence].
  specialize (Hw (USocket i)). cbn in Hw. rewrite Ek in Hw. congruence.
Qed.
Definition bytes_of (s : string) : datagram := map N_of_ascii (list_ascii_of_string s).
(** The full claim is false: after a receive that failed, what is queued stays queued
    though the loop waits and would have nothing else to do. *)
Theorem C117_refuted : exists (d : datagram) ms s, udp_run xpf xcfg 7 xbase ms (udp_start [[d]]) = Some s /\ uidle s /\
  came 0 [[d]] ms = [d] /\ List.concat (ud_calls s) = [] /\ ud_sent s = [] /\ uqueued 0 s = [d].
Proof.
  exists (bytes_of "x:1|c"), [UPolls [USocket 0]; UNext; UReceives UFailed; UNext], (mkUdp [mkSock [bytes_of "x:1|c"] false true] false UPoll [[]] [] 0 0).
  split; [reflexivity|]. split; [|repeat split; reflexivity]. split; [reflexivity|]. intros [|[|[|i]]]; reflexivity.
Qed.
Example C117_ex : @cfg_ok xQ xcfg /\
  let ms := [UArrives 1 (bytes_of "b:+2|g"); UPolls [USocket 0; USocket 1]; UNext; UReceives UData; UArrives 0 [255%N]; UReceives UData; UReceives UData; UReceives UBlocked;
             UNext; UReceives UData; UReceives UBlocked; UNext; UPolls [USocket 0]; UNext; UReceives UBlocked; UNext] in
  option_map (fun s => (ud_calls s, ud_phase s, map so_queue (ud_socks s), (ud_good s, ud_bad s), texts (List.concat (ud_calls s)),
                        map (fun e => match e with ETelemetry t => Some (t_name t, t_persist t, t_timestamp t) | _ => None end) (ud_sent s)))
    (udp_run xpf xcfg 7 xbase ms (udp_start [[bytes_of "x:1|c"; bytes_of "oops"]; []])) =
  Some ([[(0, bytes_of "x:1|c"); (0, bytes_of "oops"); (0, [255%N])]; [(1, bytes_of "b:+2|g")]; []], UPoll, [[]; []], (2%N, 1%N), ["x:1|c"; "oops"; "b:+2|g"],
        [Some ("x", false, 7%Z); Some ("b", true, 7%Z)]).
Proof. split; [exact (proj1 C27_ex)|]. reflexivity. Qed.
Print Assumptions C117_in_order. Print Assumptions C117_sends_what_it_parses. Print Assumptions C117_sends_the_points. Print Assumptions C117_none_left_waiting_partial.
Print Assumptions C117_gets_idle. Print Assumptions C117_next_arrival_recovers. Print Assumptions C117_refuted.

(** ** C118: a datagram is parsed whole. *)
Lemma first_bytes_all : forall d n, (N.of_nat (List.length d) <= n)%N -> first_bytes n d = d.
Proof.
  induction d as [|x d IH]; intros n H; cbn [first_bytes List.length] in *; [reflexivity|]. destruct (N.eqb_spec n 0) as [E|_]; [lia|]. rewrite IH by lia. reflexivity.
Qed.
(** Missing: datagrams of more than 16250 bytes. *)
Theorem C118_whole_partial : forall call : list (nat * datagram), Forall (fun x => (N.of_nat (List.length (snd x)) <= 16250)%N) call -> texts call = whole_texts call.
Proof.
  intros call H. induction H as [|[i d] call Hd _ IH]; [reflexivity|]. cbn [texts whole_texts flat_map snd] in *.
  assert (R : received d = d) by (unfold received, buffer_size; cbn [snd] in Hd; apply first_bytes_all; exact Hd). rewrite R. unfold texts, whole_texts in IH. rewrite IH. reflexivity.
Qed.
Lemma first_bytes_app : forall a b, first_bytes (N.of_nat (List.length a)) (a ++ b) = a.
Proof.
  induction a as [|x a IH]; intros b; [destruct b; reflexivity|]. cbn [List.length List.app first_bytes]. destruct (N.eqb_spec (N.of_nat (S (List.length a))) 0) as [E|_]; [lia|].
  replace (N.of_nat (S (List.length a)) - 1)%N with (N.of_nat (List.length a)) by lia. rewrite IH. reflexivity.
Qed.
Fixpoint as_ (n : nat) : string := match n with O => "" | S k => String "a" (as_ k) end.
Lemma text_as n l : text (repeat 97%N n ++ l) = (as_ n ++ text l)%string.
Proof. induction n as [|n IH]; [reflexivity|]. cbn [repeat List.app text as_ append]. rewrite IH. reflexivity. Qed.
Lemma as_free c n : c <> "a"%char -> free_of c (as_ n).
Proof. intros H. induction n as [|n IH]; cbn; [exact I|]. split; [congruence|exact IH]. Qed.
Lemma free_app c a b : free_of c a -> free_of c b -> free_of c (a ++ b)%string.
Proof. induction a as [|x a IH]; cbn; intros Ha Hb; [exact Hb|]. destruct Ha. split; [assumption|apply IH; assumption]. Qed.
Lemma split_one : forall s cur, free_of lf s -> s <> "" -> split_lines cur s = [srev cur s].
Proof.
  induction s as [|x s IH]; intros cur H Hs; [congruence|]. destruct H as [H1 H2]. cbn [split_lines]. destruct (Ascii.eqb_spec x lf); [contradiction|]. destruct s as [|y s].
  - cbn. rewrite srev_app. reflexivity.
  - rewrite IH by (assumption || discriminate). reflexivity.
Qed.
Lemma strip_free : forall s, free_of cr s -> strip_cr s = s.
Proof. induction s as [|x s IH]; intros H; [reflexivity|]. destruct H as [H1 H2]. cbn [strip_cr]. destruct s as [|y s]; [destruct (Ascii.eqb_spec x cr); [contradiction|reflexivity]|]. rewrite IH by exact H2. reflexivity. Qed.
Lemma lines_one s : free_of lf s -> free_of cr s -> s <> "" -> lines s = [s].
Proof. intros H1 H2 H3. unfold lines. rewrite split_one by assumption. cbn. rewrite strip_free; [reflexivity|exact H2]. Qed.
(** False of longer ones: a counter with a long name and a sampling rate is cut in two
    places where it is still a datagram of its own, and counts half of what it says. *)
Theorem C118_refuted : exists (d : datagram) ms s t t', udp_run xpf xcfg 7 xbase ms (udp_start [[d]]) = Some s /\ Forall of_uloop ms /\
  List.concat (ud_calls s) = [(0, d)] /\ whole_texts (List.concat (ud_calls s)) = [text d] /\
  ud_sent s = [ETelemetry t] /\ ud_good s = 1%N /\ ud_bad s = 0%N /\ parse_statsd xpf xcfg 7 xbase (text d) [] = PReturn true [t'] /\
  t_value t = VSum (fofZ 1) /\ t_value t' = VSum (fofZ 2).
Proof.
  destruct (ex_intro (fun n => n = N.to_nat 16246) _ Logic.eq_refl) as [n En]. set (cut := repeat 97%N n ++ bytes_of ":1|c"). set (d := cut ++ bytes_of "|@0.5").
  assert (Hc : @cfg_ok xQ xcfg) by exact (proj1 C27_ex).
  assert (Hl : N.of_nat (List.length cut) = buffer_size) by (unfold cut; rewrite app_length, repeat_length; cbn [bytes_of map list_ascii_of_string List.length]; unfold buffer_size; rewrite Nat2N.inj_add, En, N2Nat.id; reflexivity).
  assert (Hr : received d = cut) by (unfold received, d; rewrite <- Hl; apply first_bytes_app).
  assert (Ha : Forall (fun b => (b < 128)%N) (repeat 97%N n)) by (apply Forall_forall; intros x Hx; apply repeat_spec in Hx; subst x; reflexivity).
  assert (U1 : utf8 cut = true) by (apply ascii_utf8; unfold cut; apply Forall_app; split; [exact Ha|repeat constructor]).
  assert (U2 : utf8 d = true) by (apply ascii_utf8; unfold d, cut; apply Forall_app; split; [apply Forall_app; split; [exact Ha|repeat constructor]|repeat constructor]).
  assert (Hn : as_ n <> "") by (destruct n; [apply (f_equal N.of_nat) in En; rewrite N2Nat.id in En; discriminate|discriminate]).
  assert (T1 : text cut = line_text (as_ n) "1" TCounter None) by (unfold cut; rewrite text_as; reflexivity).
  assert (T2 : text d = line_text (as_ n) "1" TCounter (Some (true, "0.5"))) by (unfold d, cut; rewrite <- app_assoc, text_as; reflexivity).
  assert (L : forall rest, free_of lf rest -> free_of cr rest -> lines (as_ n ++ rest)%string = [(as_ n ++ rest)%string]).
  { intros rest F1 F2. apply lines_one; [apply free_app; [apply as_free; discriminate|exact F1]|apply free_app; [apply as_free; discriminate|exact F2]|destruct (as_ n); [congruence|discriminate]]. }
  destruct (C28_gauge_and_counter xQ xpf xcfg 7 xbase (as_ n) "1" (fofZ 1) true "0.5" (fratio 1 2) Hc Hn) as (_ & G1 & _ & G2); [apply as_free; discriminate|cbn; repeat split; discriminate|reflexivity|reflexivity|].
  destruct G1 as (t & P1 & _ & _ & _ & _ & V1); [apply L; cbn; repeat split; discriminate|]. destruct G2 as (t' & P2 & _ & _ & _ & _ & V2); [apply L; cbn; repeat split; discriminate|].
  rewrite <- T1 in P1. rewrite <- T2 in P2.
  exists d, [UPolls [USocket 0]; UNext; UReceives UData], (mkUdp [mkSock [] false true] false (URecv 0 [] []) [[(0, d)]] [ETelemetry t] 1 0), t, t'.
  clearbody d. clear En Hl.
  split; [|split; [repeat constructor|split; [reflexivity|split; [cbn; rewrite U2; reflexivity|]]]].
  - cbn [udp_run udp_step udp_start ud_phase utake_all uwaiting ud_socks map nth_error sock_start so_edge so_queue so_reg negb utake_event update sock_polled with_uphase utoken on_utoken]. cbn. rewrite Hr, U1, P1. reflexivity.
  - repeat (split; [reflexivity|]). split; [exact P2|]. split; [exact V1|]. rewrite V2. reflexivity.
Qed.
Example C118_ex : Forall (fun x : nat * datagram => (N.of_nat (List.length (snd x)) <= 16250)%N) [(0, bytes_of "x:1|c"); (1, [255%N])] /\ texts [(0, bytes_of "x:1|c"); (1, [255%N])] = ["x:1|c"].
Proof. split; [repeat constructor; discriminate|reflexivity]. Qed.
Print Assumptions C118_whole_partial. Print Assumptions C118_refuted.

(** ** C119: the statsd source announces its shutdown once, last, and only when told. *)
Lemma signalled_dec (ms : list umove) : In USignalled ms \/ ~ In USignalled ms.
Proof. induction ms as [|m ms [H|H]]; [right; intros []|left; right; exact H|]. destruct m; [| left; left; reflexivity| | |]; right; intros [Hm|Hm]; (discriminate || auto). Qed.
Theorem C119_shutdown : forall (Q : QLib) pf cfg now base queues ms s, (N.of_nat (List.length queues) < 2048)%N -> cfg_ok cfg ->
  udp_run pf cfg now base ms (udp_start queues) = Some s ->
  (exists sent, ud_sent s = map ETelemetry sent ++ (match ud_phase s with UEnd => [EShutdown] | _ => [] end)) /\
  (ud_phase s = UEnd -> In USignalled ms /\ forall m s', of_uloop m -> udp_step pf cfg now base s m <> Some s') /\
  (In USignalled ms -> exists ms' s', Forall of_uloop ms' /\ udp_run pf cfg now base ms' s = Some s' /\ ud_phase s' = UEnd).
Proof.
  intros Q pf cfg now base queues ms s Hn Hc E. destruct (C117_sends_what_it_parses Q pf cfg now base queues ms s Hn Hc E) as (sent & g & b & _ & H & _). split; [eauto|]. split.
  - intros Hp. split.
    + destruct (signalled_dec ms) as [Hin|Hno]; [exact Hin|]. exfalso.
      destruct (urun_quiet pf cfg now base _ Hn ms _ s (ustart_inv queues)) as (_ & _ & Q3); [split; [reflexivity|split; [intros []|discriminate]]|exact Hno|exact E|]. contradiction.
    + intros m s' Hm. destruct m; cbn in Hm |- *; rewrite ?Hp; (contradiction || discriminate).
  - intros Hin. pose proof (urun_told pf cfg now base ms _ s Hin E) as T. pose proof (urun_uinv pf cfg now base _ ms _ s Hn (ustart_inv queues) E) as Iv.
    assert (Hp : ud_phase s <> UPanic) by (apply (urun_safe pf cfg now base _ Hn Hc ms (udp_start queues) s); [apply ustart_inv|discriminate|exact E]).
    destruct (ud_phase s) eqn:Ep; try congruence.
    1-3: apply (uto_end pf cfg now base _ s Hn Hc Iv); [unfold urunning; rewrite Ep; reflexivity|]; unfold utold in T; rewrite Ep in T |- *; destruct T as [T|[T|T]]; [auto|auto|discriminate].
    exists [], s. split; [constructor|]. auto.
Qed.
Example C119_ex :
  let ms := [UPolls [USocket 0]; UNext; USignalled; UReceives UData; UReceives UBlocked; UNext; UPolls [USystem]; UNext] in
  option_map (fun s => (ud_sent s, ud_phase s)) (udp_run xpf xcfg 7 xbase ms (udp_start [[bytes_of "x:1|c"]])) = Some ([ETelemetry (pt "x" (VSum (fofZ 1)) false None 7); EShutdown], UEnd).
Proof. reflexivity. Qed.
Print Assumptions C119_shutdown.
