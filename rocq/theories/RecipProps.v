(** * Property C156, for every n: at the rate 1/n whole counts are scaled exactly if and only if n passes a check on integers. *)
From Verif Require Import Base TelemetryModel ParseModel ParseSpec ParseProofs ParseProps FloatFacts RoundSpec RoundProofs ArithProofs NumberModel NumberSpec NumberProofs NumberProps CountProps SampleSpec SampleProofs SampleProps RecipSpec RecipProofs QExample TelemetryProps.
Open Scope string_scope. Open Scope list_scope. Open Scope Z_scope.

Theorem C156_exact : forall (Q : QLib) named cfg now (base : telemetry) name vtext z (counter bar : bool) rtext c d n,
  cfg_ok cfg -> name <> "" -> free_of ":" name -> free_of "|" vtext ->
  integer vtext z -> z <> 0 -> Z.abs z < 2 ^ 53 -> Z.abs (z * n) <= 2 ^ 53 -> 1 <= n -> exact_at n ->
  (* the rate is written so that the float nearest to it is the one nearest to 1/n *)
  writes rtext false c d -> (forall r, nearest false c d r <-> nearest false 1 n r) ->
  let src := ParseSpec.line_text name vtext (if counter then TCounter else TGauge) (Some (bar, rtext)) in ParseModel.lines src = [src] ->
  exists t, parse_statsd (parse_f64 named) cfg now base src [] = PReturn true [t] /\ t_name t = name /\ t_timestamp t = now /\ t_tags t = t_tags base /\
    t_value t = if counter then VSum (fofZ (z * n)) else if explicitly_signed vtext then VSum (fofZ (z * n)) else VSet (fofZ (z * n)).
Proof.
  intros Q named cfg now base name vtext z counter bar rtext c d n Hc Hn Hf Hb Iz Nz Hz Hzn Pn Xn Wr Same src El.
  assert (Bn : 1 <= n <= 2 ^ 53) by (split; [exact Pn|nia]).
  destruct (writes_parts _ _ _ _ Wr) as (C0 & D0 & Rr). destruct (Rr named) as (r & Pr & Nr). apply Same in Nr.
  assert (Er : r = quotient false 1 n) by (eapply nearest_unique; [|exact Nr|apply quotient_nearest; lia]; lia).
  assert (Pv : parse_f64 named vtext = Some (fofZ z)).
  { rewrite (C151_whole named vtext z Iz) by lia. f_equal. apply opp_whole. exact Hz. }
  assert (Sc : fmul (fofZ z) (fdiv fone r) = fofZ (z * n)). { rewrite Er, (proj2 (recip_iff n Bn) Xn). apply fmul_whole; [lia|rewrite Z.abs_eq by lia; lia|nia|exact Hzn]. }
  destruct (C28_gauge_and_counter Q (parse_f64 named) cfg now base name vtext (fofZ z) bar rtext r Hc Hn Hf Hb Pv Pr) as (_ & _ & G & C).
  unfold src in *. destruct counter; [destruct (C El) as (t & E & H1 & H2 & H3 & _ & H5)|destruct (G El) as (t & E & H1 & H2 & H3 & _ & H5)]; exists t; rewrite Sc in H5; auto.
Qed.
(** at all other rates 1/n a single one is already not counted as n *)
Theorem C156_inexact : forall (Q : QLib) named cfg now (base : telemetry) name (bar : bool) rtext c d n,
  cfg_ok cfg -> name <> "" -> free_of ":" name -> 1 <= n <= 2 ^ 53 -> ~ exact_at n ->
  writes rtext false c d -> (forall r, nearest false c d r <-> nearest false 1 n r) ->
  let src := ParseSpec.line_text name "1" TCounter (Some (bar, rtext)) in ParseModel.lines src = [src] ->
  exists t x, parse_statsd (parse_f64 named) cfg now base src [] = PReturn true [t] /\ t_name t = name /\ t_value t = VSum x /\ x <> fofZ n.
Proof.
  intros Q named cfg now base name bar rtext c d n Hc Hn Hf Bn Xn Wr Same src El.
  destruct (writes_parts _ _ _ _ Wr) as (C0 & D0 & Rr). destruct (Rr named) as (r & Pr & Nr). apply Same in Nr.
  assert (Er : r = quotient false 1 n) by (eapply nearest_unique; [|exact Nr|apply quotient_nearest; lia]; lia).
  assert (Pv : parse_f64 named "1" = Some fone) by (vm_compute; reflexivity). assert (F2 : free_of "|" "1") by (split; [discriminate|exact Logic.I]).
  destruct (C28_gauge_and_counter Q (parse_f64 named) cfg now base name "1" fone bar rtext r Hc Hn Hf F2 Pv Pr) as (_ & _ & _ & C).
  destruct (C El) as (t & E & H1 & _ & _ & _ & H5). exists t. eexists. split; [exact E|]. split; [exact H1|]. split; [exact H5|].
  rewrite Er, (recip_times n Bn Xn). intros X. apply Xn. apply (recip_iff n Bn). exact X.
Qed.
(** 3 and 10^10 pass the check; 49, 98 and 100000 do not *)
Example C156_ex_at : exact_at 3 /\ exact_at 10000000000 /\ ~ exact_at 49 /\ ~ exact_at 100000 /\ ~ exact_at 98.
Proof. repeat split; vm_compute; (reflexivity || discriminate). Qed.
(** the rates listed before are among them *)
Example C156_ex_rates : forall n, In n (map Z.of_nat (seq 1 48) ++ [50; 64; 100; 128; 200; 250; 256; 500; 512; 1000; 1024; 2000; 5000; 10000; 1000000]) -> exact_at n.
Proof. apply Forall_forall. repeat (apply Forall_cons; [vm_compute; reflexivity|]). apply Forall_nil. Qed.
Example C156_ex_line : match parse_statsd (parse_f64 names_1_55) xcfg 7 xbase "a:1|c|@0.00001" [] with PReturn true [t] => match t_value t with VSum x => negb (feqb x (fofZ 100000)) | _ => false end | _ => false end = true.
Proof. vm_compute. reflexivity. Qed.

Print Assumptions C156_exact.
Print Assumptions C156_inexact.
