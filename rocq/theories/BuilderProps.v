(** * C146: what the builder of a point is told *)
From Verif Require Import Base TelemetryModel TelemetrySpec TelemetryProofs BuilderSpec BuilderProofs QExample TelemetryProps.
From Coq Require Import Lia.
Open Scope string_scope. Open Scope list_scope. Open Scope nat_scope.

(** a chain of calls panics when bounds are given that have a NaN among several, and never else *)
Theorem C146_panics : forall (Q : QLib) cs (s : soft), chain cs s = None <-> exists bs, In (Bounds bs) cs /\ unordered bs.
Proof. exact @chain_none. Qed.
(** only what is said last of each thing matters, not when it is said *)
Theorem C146_order_free : forall (Q : QLib) cs cs' (s r r' : soft), agree cs cs' -> chain cs s = Some r -> chain cs' s = Some r' -> r = r'.
Proof.
  intros Q cs cs' s r r' (A & B & C & D & E & F & G & H & I & J) X Y. rewrite (chain_told _ _ _ X), (chain_told _ _ _ Y). unfold told. now rewrite A, B, C, D, E, F, G, H, I, J.
Qed.
(** A point made from nothing holds what was said last; what was never said has the default. Missing: count and sum given to
    a point that is no summary (below). *)
Theorem C146_new_partial : forall (Q : QLib) now cs s t, chain cs soft_new = Some s -> harden now s = HOk t ->
  latest says_name cs = Some (t_name t) /\
  t_timestamp t = match latest says_timestamp cs with Some x => x | None => now end /\
  t_tags t = latest says_tags cs /\
  t_persist t = match latest says_persist cs with Some p => p | None => false end /\
  t_kind t = match latest says_kind cs with Some k => k | None => MSet end /\
  exists x, latest says_value cs = Some x /\
  match t_kind t with
  | MSet => t_value t = VSet x
  | MSum => t_value t = VSum x
  | MHistogram => exists bs h, Permutation (match latest says_bounds cs with Some bs => bs | None => [fofZ 1; fofZ 10; fofZ 100; fofZ 1000] end) bs /\
      h_new bs = Some h /\ t_value t = VHist (h_insert h x)
  | MSummarize => t_value t = VQuant (c_insert (c_new match latest says_error cs with Some (Some e) => e | _ => fratio 1 1000 end) x) x /\
      t_override_count t = latest says_count cs /\ t_override_sum t = latest says_sum cs
  end.
Proof.
  intros Q now cs s t H E. apply chain_told in H. subst s. unfold harden, told in E. cbn in E.
  assert (N : forall A (o : option A), orelse o None = o) by (intros A [a|]; reflexivity). rewrite !N in E.
  destruct (latest says_value cs) as [x|] eqn:Ev; [|discriminate]. destruct (latest says_name cs) as [n|] eqn:En; [|discriminate].
  destruct (latest says_kind cs) as [[| | |]|]; destruct (latest says_error cs) as [[e|]|]; destruct (latest says_bounds cs) as [bs|]; cbn in E; try discriminate E;
    try match type of E with context [h_new ?b] => destruct (h_new b) eqn:Eh; [|discriminate E] end;
    try match type of E with context [fleb fone ?b] => destruct (fleb fone b); [discriminate E|] end;
    injection E as <-; cbn; (repeat (split; [reflexivity|])); exists x; (split; [reflexivity|]);
    first [reflexivity | (repeat split; reflexivity) | (eexists _, _; split; [|split; [exact Eh|reflexivity]]; first [apply fsort_perm | reflexivity])].
Qed.
(** The same for a thawed point: what is not said stays as it was, the count and sum the point was given apart. Missing: a
    kind said without a value. *)
Theorem C146_thawed_partial : forall (Q : QLib) now t0 cs s t, chain cs (thaw t0) = Some s -> harden now s = HOk t ->
  t_name t = match latest says_name cs with Some n => n | None => t_name t0 end /\
  t_timestamp t = match latest says_timestamp cs with Some x => x | None => t_timestamp t0 end /\
  t_tags t = match latest says_tags cs with Some m => Some m | None => t_tags t0 end /\
  t_persist t = match latest says_persist cs with Some p => p | None => t_persist t0 end /\
  match latest says_value cs with
  | None => t_value t = t_value t0
  | Some x => t_kind t = match latest says_kind cs with Some k => k | None => t_kind t0 end /\
      match t_kind t with MSet => t_value t = VSet x | MSum => t_value t = VSum x | _ => value_count (t_value t) = 1%N end
  end /\
  (t_override_count t = None \/ t_override_count t = latest says_count cs) /\ (t_override_sum t = None \/ t_override_sum t = latest says_sum cs).
Proof.
  intros Q now t0 cs s t H E. pose proof (C09_harden_outcome Q now s) as O. rewrite E in O. destruct O as (_ & _ & O1 & O2 & O3 & O4 & O5 & O6).
  apply chain_told in H. subst s. unfold told in *. cbn in *.
  split. { destruct (latest says_name cs); cbn in O1; congruence. }
  split. { destruct (latest says_timestamp cs); cbn in O3; congruence. }
  split. { destruct (latest says_tags cs); cbn in O2; congruence. }
  split. { destruct (latest says_persist cs); cbn in O4; congruence. }
  split.
  { destruct (latest says_value cs) as [x|]; cbn in *; [|now apply O5]. destruct (O6 x eq_refl) as (K & A & B & C). unfold kind_of_builder in K. cbn in K.
    split; [rewrite K; destruct (latest says_kind cs); reflexivity|].
    unfold t_kind, t_set, t_sum in *. destruct (t_value t); cbn in *; try assumption; [specialize (A eq_refl)|specialize (B eq_refl)]; congruence. }
  unfold harden in E. cbn in E.
  repeat match type of E with (match ?x with _ => _ end) = _ => destruct x; try discriminate E end; injection E as <-; cbn; auto;
    unfold orelse; destruct (latest says_count cs), (latest says_sum cs); auto.
Qed.

(** The full claim, the point holds what it was told last, fails in two ways. A count or a sum told to anything but a summary
    is dropped; *)
Theorem C146_refuted_count : forall Q : QLib, exists cs s t, chain cs soft_new = Some s /\ harden 0 s = HOk t /\
  latest says_count cs = Some 7%N /\ t_count t = 1%N /\ t_override_count t = None.
Proof. intros Q. exists [Name "x"; Value (fofZ 3); Kind MSum; Count 7]. do 2 eexists. repeat split; reflexivity. Qed.
(** and a thawed point keeps its kind unless it is told a value too. *)
Theorem C146_refuted_kind : forall Q : QLib, exists t0 cs s t, chain cs (thaw t0) = Some s /\ harden 0 s = HOk t /\
  latest says_kind cs = Some MSum /\ t_kind t = MSet.
Proof. intros Q. exists (pt "x" (VSet (fofZ 3)) false None 9), [Kind MSum]. do 2 eexists. repeat split; reflexivity. Qed.

Example C146_ex : let cs := [Value (fofZ 1); Kind MHistogram; Name "a"; Tags [("k", "v")]; Kind MSummarize; Error (fratio 1 2); Count 3; Name "b"; ClearError; Tags []; Count 4; Value (fofZ 2)] in
  latest says_name cs = Some "b" /\ latest says_count cs = Some 4%N /\ latest says_tags cs = Some [] /\ latest says_error cs = Some None /\
  match chain cs (@soft_new xQ) with
  | Some s => match harden 5 s with HOk t => (t_name t, t_tags t, t_timestamp t, t_override_count t, t_kind t) = ("b", Some [], 5%Z, Some 4%N, MSummarize) | _ => False end
  | None => False end.
Proof. repeat split; reflexivity. Qed.
Example C146_agree_ex : agree [Name "a"; Value (fofZ 1); Name "b"] [Value (fofZ 2); Name "b"; Value (fofZ 1)].
Proof. repeat split. Qed.
Print Assumptions C146_panics. Print Assumptions C146_order_free. Print Assumptions C146_new_partial. Print Assumptions C146_thawed_partial.
Print Assumptions C146_refuted_count. Print Assumptions C146_refuted_kind.
