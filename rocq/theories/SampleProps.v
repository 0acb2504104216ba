(** * Properties C155 and C156: sampled lines count what they stand for. *)
From Verif Require Import Base TelemetryModel ParseModel ParseSpec ParseProofs ParseProps FloatFacts RoundSpec RoundProofs ArithProofs NumberModel NumberSpec NumberProofs NumberProps CountProps SampleSpec SampleProofs QExample TelemetryProps.
Open Scope string_scope. Open Scope list_scope. Open Scope Z_scope.

Lemma writes_parts s neg a b : writes s neg a b -> 0 <= a /\ 0 < b /\ forall named, exists x, parse_f64 named s = Some x /\ nearest neg a b x.
Proof.
  intros (r & n & e & Sg & D & -> & ->). pose proof (decimal_nonneg _ _ _ D) as Hn. split; [apply Z.mul_nonneg_nonneg; [exact Hn|apply Z.pow_nonneg; discriminate]|]. split; [apply Z.pow_pos_nonneg; lia|].
  intros named. destruct (C151_decimals named s neg r n e Sg D) as (x & P & U). exists x. split; [exact P|]. apply U. reflexivity.
Qed.
(** ** C155: a value sampled at a rate is counted as the value divided by the rate *)
Theorem C155_sampled : forall (Q : QLib) named cfg now (base : telemetry) name vtext ty (bar : bool) rtext neg a b neg' c d,
  cfg_ok cfg -> name <> "" -> free_of ":" name -> free_of "|" vtext ->
  writes vtext neg a b -> writes rtext neg' c d -> (a = 0 \/ ordinary a b) -> ordinary c d ->
  let src := ParseSpec.line_text name vtext ty (Some (bar, rtext)) in ParseModel.lines src = [src] ->
  exists t x, parse_statsd (parse_f64 named) cfg now base src [] = PReturn true [t] /\ t_name t = name /\ t_timestamp t = now /\ t_tags t = t_tags base /\
    about (xorb neg neg') (a * d) (b * c) x /\
    match ty with
    | TCounter => t_value t = VSum x
    | TGauge => t_value t = if explicitly_signed vtext then VSum x else VSet x
    | TTimer | THistogram =>
        match first_mask (sc_masks cfg) name with
        | None => t_value t = VQuant (c_insert (c_new (sc_error cfg)) x) x
        | Some bs => exists h, h_new (fsort bs) = Some h /\ t_value t = VHist (h_insert h x)
        end
    end.
Proof.
  intros Q named cfg now base name vtext ty bar rtext neg a b neg' c d Hc Hn Hf Hb Wv Wr Ha (C1 & C2 & C3) src El.
  destruct (writes_parts _ _ _ _ Wv) as (A0 & B0 & Rv). destruct (Rv named) as (v & Pv & Nv). destruct (writes_parts _ _ _ _ Wr) as (C0 & D0 & Rr). destruct (Rr named) as (r & Pr & Nr).
  assert (S : says (parse_f64 named) src (mkStat name v (explicitly_signed vtext) ty (Some r))) by exact (says_sampled (parse_f64 named) src name vtext v ty bar rtext r Hn Hf Hb Pv Pr Logic.eq_refl).
  destruct (one_line Q (parse_f64 named) cfg now base src _ Hc El S) as (t & E & M1 & M2 & M3 & _ & _ & M). cbn [st_name st_type st_signed scaled st_rate st_value] in *.
  exists t, (fmul v (fdiv fone r)). split; [exact E|]. split; [exact M1|]. split; [exact M2|]. split; [exact M3|]. split.
  - destruct Ha as [->|(A1 & A2 & A3)].
    + rewrite (sampled_zero _ _ _ _ _ _ _ B0 Nv C1 D0 C2 C3 Nr). split; [reflexivity|]. split; [reflexivity|]. cbn [units]. rewrite !Z.mul_0_l. discriminate.
    + exact (sampled_close _ _ _ _ _ _ _ _ A1 B0 A2 A3 Nv C1 D0 C2 C3 Nr).
  - destruct ty; try exact (proj2 M).
Qed.

(** ** C156: whole numbers at the rates in use are scaled exactly *)
Definition same_float (x y : f64) : bool :=
  match x, y with S754_finite s m e, S754_finite s' m' e' => Bool.eqb s s' && Pos.eqb m m' && Z.eqb e e' | _, _ => false end.
Lemma same_float_eq x y : same_float x y = true -> x = y.
Proof.
  destruct x, y; try discriminate. cbn [same_float]. intros H. apply andb_prop in H as [H H3]. apply andb_prop in H as [H1 H2]. apply Bool.eqb_prop in H1. apply Pos.eqb_eq in H2. apply Z.eqb_eq in H3. congruence.
Qed.
Lemma recip_exact n : exact_rate n -> fdiv fone (quotient false 1 n) = fofZ n.
Proof.
  assert (G : forall l, forallb (fun n => same_float (fdiv fone (quotient false 1 n)) (fofZ n)) l = true -> In n l -> fdiv fone (quotient false 1 n) = fofZ n).
  { intros l H Hin. apply same_float_eq. rewrite forallb_forall in H. exact (H _ Hin). }
  intros [H|H].
  - apply (G (map Z.of_nat (seq 1 48))); [vm_compute; reflexivity|]. apply in_map_iff. exists (Z.to_nat n). split; [apply Z2Nat.id; lia|]. apply in_seq. lia.
  - revert H. apply G. vm_compute. reflexivity.
Qed.
Theorem C156_whole_partial : forall (Q : QLib) named cfg now (base : telemetry) name vtext z (counter bar : bool) rtext c d n,
  cfg_ok cfg -> name <> "" -> free_of ":" name -> free_of "|" vtext ->
  integer vtext z -> z <> 0 -> Z.abs z < 2 ^ 53 -> Z.abs (z * n) <= 2 ^ 53 -> exact_rate n ->
  (* the rate is written so that the float nearest to it is the one nearest to 1/n, as 0.1 or 0.3333333333333333 *)
  writes rtext false c d -> (forall r, nearest false c d r <-> nearest false 1 n r) ->
  let src := ParseSpec.line_text name vtext (if counter then TCounter else TGauge) (Some (bar, rtext)) in ParseModel.lines src = [src] ->
  exists t, parse_statsd (parse_f64 named) cfg now base src [] = PReturn true [t] /\ t_name t = name /\ t_timestamp t = now /\ t_tags t = t_tags base /\
    t_value t = if counter then VSum (fofZ (z * n)) else if explicitly_signed vtext then VSum (fofZ (z * n)) else VSet (fofZ (z * n)).
Proof.
  intros Q named cfg now base name vtext z counter bar rtext c d n Hc Hn Hf Hb Iz Nz Hz Hzn Xn Wr Same src El.
  assert (Pn : 1 <= n <= 2 ^ 53). { change (2 ^ 53) with 9007199254740992. destruct Xn as [H|H]; [lia|]. cbn [In] in H. lia. }
  destruct (writes_parts _ _ _ _ Wr) as (C0 & D0 & Rr). destruct (Rr named) as (r & Pr & Nr). apply Same in Nr.
  assert (Er : r = quotient false 1 n) by (eapply nearest_unique; [|exact Nr|apply quotient_nearest; lia]; lia).
  assert (Pv : parse_f64 named vtext = Some (fofZ z)).
  { rewrite (C151_whole named vtext z Iz) by lia. f_equal. apply opp_whole. exact Hz. }
  assert (Sc : fmul (fofZ z) (fdiv fone r) = fofZ (z * n)). { rewrite Er, (recip_exact n Xn). apply fmul_whole; [lia|rewrite Z.abs_eq by lia; lia|nia|exact Hzn]. }
  destruct (C28_gauge_and_counter Q (parse_f64 named) cfg now base name vtext (fofZ z) bar rtext r Hc Hn Hf Hb Pv Pr) as (_ & _ & G & C).
  unfold src in *. destruct counter; [destruct (C El) as (t & E & H1 & H2 & H3 & _ & H5)|destruct (G El) as (t & E & H1 & H2 & H3 & _ & H5)]; exists t; rewrite Sc in H5; auto.
Qed.
(** at the rate 0.00001 one is counted as 99999.99999999999 *)
Theorem C156_refuted : exists rtext x, writes rtext false 1 100000 /\ x <> fofZ 100000 /\
  forall (Q : QLib) named cfg now (base : telemetry), cfg_ok cfg ->
    exists t, parse_statsd (parse_f64 named) cfg now base ("a:1|c|@" ++ rtext) [] = PReturn true [t] /\ t_value t = VSum x.
Proof.
  exists "0.00001", (fdiv fone (quotient false 1 100000)).
  assert (W : writes "0.00001" false 1 100000).
  { exists "0.00001", 1, (-5). split; [apply sign_spec; reflexivity|]. split; [apply decimal_spec; vm_compute; reflexivity|]. split; reflexivity. }
  split; [exact W|]. split; [intros X; apply (f_equal (same_float (fofZ 100000))) in X; vm_compute in X; discriminate X|].
  intros Q named cfg now base Hc. destruct (writes_parts _ _ _ _ W) as (_ & _ & Rr). destruct (Rr named) as (r & Pr & Nr).
  assert (Er : r = quotient false 1 100000) by (eapply nearest_unique; [|exact Nr|apply quotient_nearest; reflexivity]; reflexivity).
  assert (Pv : parse_f64 named "1" = Some fone) by (vm_compute; reflexivity).
  assert (F1 : free_of ":" "a") by (split; [discriminate|exact Logic.I]). assert (F2 : free_of "|" "1") by (split; [discriminate|exact Logic.I]). assert (Na : "a" <> "") by discriminate.
  destruct (C28_gauge_and_counter Q (parse_f64 named) cfg now base "a" "1" fone true "0.00001" r Hc Na F1 F2 Pv Pr) as (_ & _ & _ & C).
  destruct C as (t & P & _ & _ & _ & _ & V); [reflexivity|]. exists t. split; [exact P|].
  assert (Fm : fmul fone (fdiv fone (quotient false 1 100000)) = fdiv fone (quotient false 1 100000)) by (vm_compute; reflexivity). rewrite V, Er, Fm. reflexivity.
Qed.
(** "a:-3|c|@0.1": the rate is the float nearest to a tenth, and the line counts -30 *)
Example C156_ex :
  integer "-3" (-3) /\ exact_rate 10 /\ writes "0.1" false 1 10 /\ 
  match parse_statsd (parse_f64 names_1_55) xcfg 7 xbase "a:-3|c|@0.1" [] with PReturn true [t] => match t_value t with VSum x => Some x | _ => None end | _ => None end = Some (fofZ (-30)).
Proof.
  split; [apply i64_spec; vm_compute; reflexivity|]. split; [left; split; discriminate|]. split; [exists "0.1", 1, (-1); split; [apply sign_spec; reflexivity|]; split; [apply decimal_spec; vm_compute; reflexivity|split; reflexivity]|].
  vm_compute. reflexivity.
Qed.
(** "a:-2.5|ms|@0.3" *)
Example C155_ex : writes "-2.5" true 25 10 /\ ordinary 25 10 /\ writes "0.3" false 3 10 /\ ordinary 3 10 /\ ParseModel.lines "a:-2.5|ms|@0.3" = ["a:-2.5|ms|@0.3"] /\
  about true 250 30 (fmul (fratio (-5) 2) (fdiv fone (quotient false 3 10))).
Proof.
  split; [exists "2.5", 25, (-1); split; [apply sign_spec; reflexivity|]; split; [apply decimal_spec; vm_compute; reflexivity|split; reflexivity]|]. split; [repeat split; discriminate|].
  split; [exists "0.3", 3, (-1); split; [apply sign_spec; reflexivity|]; split; [apply decimal_spec; vm_compute; reflexivity|split; reflexivity]|]. split; [repeat split; discriminate|]. split; [reflexivity|].
  split; [vm_compute; reflexivity|]. split; [vm_compute; reflexivity|]. apply Z.leb_le. vm_compute. reflexivity.
Qed.
Print Assumptions C155_sampled.
Print Assumptions C156_whole_partial.
Print Assumptions C156_refuted.
