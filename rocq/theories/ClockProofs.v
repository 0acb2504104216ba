From Verif Require Import Base BaseFacts TelemetryModel FiltersModel FiltersProofs WavefrontModel ClockModel ClockSpec.
From Coq Require Import Lia Sorted.
Open Scope list_scope. Open Scope Z_scope.

Section P.
Variable wall : Z -> Z.
Lemma told_back i : - 2 ^ 63 <= wall i < 2 ^ 63 -> as_i64 (as_usize (wall i)) = wall i.
Proof.
  unfold as_i64, as_usize. pose proof (Z.mod_pos_bound (wall i) (2 ^ 64) ltac:(lia)) as B. rewrite Z2N.id by lia. intros T.
  rewrite <- (wrap64_id (wall i)) at 2 by lia. unfold wrap64. rewrite Z.mod_mod by lia. reflexivity.
Qed.
Lemma run_snoc tr e : forall c, ck_run wall (tr ++ [e]) c =
  match ck_run wall tr c with Some (c', l) => match ck_step wall c' e with Some (c'', o) => Some (c'', l ++ match o with Some z => [z] | None => [] end) | None => None end | None => None end.
Proof.
  induction tr as [|x tr IH]; intros c; cbn [app ck_run].
  - destruct (ck_step wall c e) as [[c' [z|]]|]; reflexivity.
  - destruct (ck_step wall c x) as [[c' o]|]; [|reflexivity]. rewrite IH. destruct (ck_run wall tr c') as [[c2 l]|]; [|reflexivity]. destruct (ck_step wall c2 e) as [[c3 o3]|]; [|reflexivity]. destruct o; reflexivity.
Qed.
Definition paired (b : list tick) : Prop := exists b1 i b2 j b3, b = b1 ++ Samples i :: b2 ++ Stores j :: b3.
Definition sampling (e : tick) : bool := match e with Samples _ => true | _ => false end.
Record inv (tr : list tick) (c : clock) : Prop := mkInv {
  i_sample : forall n, ck_sample c = Some n -> exists a i b, tr = a ++ Samples i :: b /\ n = as_usize (wall i) /\ (forall e, In e b -> sampling e = false);
  i_now : forall n, ck_now c = Some n -> exists a e b, tr = a ++ e :: b /\ n = as_usize (wall (instant e)) /\ ~ paired b;
}.
Lemma paired_snoc b e : ~ paired b -> (forall j, e <> Stores j) -> ~ paired (b ++ [e]).
Proof.
  intros N He (b1 & i & b2 & j & b3 & E). destruct b3 as [|x b3] using rev_ind.
  - change (Samples i :: b2 ++ [Stores j]) with ((Samples i :: b2) ++ [Stores j]) in E. rewrite app_assoc in E. apply app_inj_tail in E as [_ E]. exact (He j E).
  - apply N. exists b1, i, b2, j, b3. replace (b1 ++ Samples i :: b2 ++ Stores j :: b3 ++ [x]) with ((b1 ++ Samples i :: b2 ++ Stores j :: b3) ++ [x]) in E.
    + apply app_inj_tail in E as [E _]. exact E.
    + rewrite <- app_assoc. cbn. rewrite <- app_assoc. reflexivity.
Qed.
Lemma unsampled b : (forall e, In e b -> sampling e = false) -> ~ paired b.
Proof. intros H (b1 & i & b2 & j & b3 & ->). specialize (H (Samples i)). cbn in H. discriminate H. apply in_or_app. right. left. reflexivity. Qed.
Lemma inv_run tr : forall c l, ck_run wall tr ck_start = Some (c, l) -> inv tr c.
Proof.
  induction tr as [|e tr IH] using rev_ind; intros c l E; [injection E as <- <-; split; discriminate|].
  rewrite run_snoc in E. destruct (ck_run wall tr ck_start) as [[c0 l0]|]; [|discriminate]. specialize (IH _ _ eq_refl). destruct IH as [Is In_].
  destruct (ck_step wall c0 e) as [[c1 o]|] eqn:Es; [|discriminate]. injection E as <- _. destruct e as [i|i|i]; cbn [ck_step] in Es.
  - injection Es as <- _. split; cbn [ck_sample ck_now]; intros n Hn.
    + destruct (Is n Hn) as (a & k & b & -> & En & Nb). exists a, k, (b ++ [Reads i]). rewrite <- app_assoc. split; [reflexivity|]. split; [exact En|]. intros e He. apply in_app_or in He as [He|[<-|[]]]; auto.
    + injection Hn as <-. unfold touch. destruct (ck_now c0) as [n|] eqn:Ec.
      * destruct (In_ n eq_refl) as (a & e & b & -> & En & Np). exists a, e, (b ++ [Reads i]). rewrite <- app_assoc. split; [reflexivity|]. split; [exact En|]. apply paired_snoc; [exact Np|discriminate].
      * exists tr, (Reads i), []. split; [reflexivity|]. split; [reflexivity|]. apply unsampled. intros e [].
  - destruct (ck_sample c0) eqn:Ec; [discriminate|]. injection Es as <- _. split; cbn [ck_sample ck_now]; intros n Hn.
    + injection Hn as <-. exists tr, i, []. split; [reflexivity|]. split; [reflexivity|]. intros e [].
    + destruct (In_ n Hn) as (a & e & b & -> & En & Np). exists a, e, (b ++ [Samples i]). rewrite <- app_assoc. split; [reflexivity|]. split; [exact En|]. apply paired_snoc; [exact Np|discriminate].
  - destruct (ck_sample c0) as [m|] eqn:Ec; [|discriminate]. injection Es as <- _. split; cbn [ck_sample ck_now]; intros n Hn; [discriminate|]. injection Hn as <-.
    destruct (Is m eq_refl) as (a & k & b & -> & En & Nb). exists a, (Samples k), (b ++ [Stores i]). rewrite <- app_assoc. split; [reflexivity|]. split; [exact En|]. apply unsampled.
    intros e He. apply in_app_or in He as [He|[<-|[]]]; auto.
Qed.
Lemma reading tr i c l v : tells wall (tr ++ [Reads i]) -> ck_run wall (tr ++ [Reads i]) ck_start = Some (c, l ++ [v]) ->
  exists a e b, tr ++ [Reads i] = a ++ e :: b /\ v = wall (instant e) /\ ~ paired b.
Proof.
  intros T E. pose proof (inv_run _ _ _ E) as [_ I]. rewrite run_snoc in E. destruct (ck_run wall tr ck_start) as [[c0 l0]|]; [|discriminate]. cbn [ck_step] in E. injection E as <- E. apply app_inj_tail in E as [_ <-].
  destruct (I _ eq_refl) as (a & e & b & Et & En & Np). exists a, e, b. rewrite En, told_back; [auto|]. apply T. rewrite Et. apply in_or_app. right. left. reflexivity.
Qed.
(** readings in order *)
Record rising (tr : list tick) (c : clock) (l : list Z) : Prop := mkRise {
  r_sorted : StronglySorted Z.le l;
  r_now : exists s, ck_now c = Some (as_usize (wall s)) /\ (exists e, In e tr /\ instant e = s) /\ Forall (fun v => v <= wall s) l /\
    forall m, ck_sample c = Some m -> exists i, m = as_usize (wall i) /\ s <= i /\ exists e, In e tr /\ instant e = i;
}.
Lemma in_time_pre tr e : in_time (tr ++ [e]) -> in_time tr /\ forall d, In d tr -> instant d <= instant e.
Proof.
  intros H. split.
  - intros a d b f c E. apply (H a d b f (c ++ [e])). rewrite E. rewrite <- app_assoc. cbn. rewrite <- app_assoc. reflexivity.
  - intros d Hd. apply in_split in Hd as (a & b & ->). apply (H a d b e []). rewrite <- app_assoc. reflexivity.
Qed.
Lemma sorted_snoc l v : StronglySorted Z.le l -> Forall (fun x => x <= v) l -> StronglySorted Z.le (l ++ [v]).
Proof.
  induction 1 as [|a l S IH F]; intros H; cbn; [repeat constructor|]. inversion H; subst. constructor; [auto|]. rewrite Forall_forall in *. intros x Hx. apply in_app_or in Hx as [Hx|[<-|[]]]; auto.
Qed.
Lemma rising_run i0 tr : steady wall -> tells wall (Reads i0 :: tr) -> in_time (Reads i0 :: tr) -> forall c l, ck_run wall (Reads i0 :: tr) ck_start = Some (c, l) -> rising (Reads i0 :: tr) c l.
Proof.
  intros St. induction tr as [|e tr IH] using rev_ind; intros T Ti c l E.
  { cbn in E. injection E as <- <-. rewrite told_back by (apply (T (Reads i0)); left; reflexivity). split; [repeat constructor|]. exists i0. cbn. split; [reflexivity|]. split; [exists (Reads i0); auto|]. split; [repeat constructor; lia|discriminate]. }
  change (Reads i0 :: tr ++ [e]) with ((Reads i0 :: tr) ++ [e]) in *. set (tr0 := Reads i0 :: tr) in *. clearbody tr0.
  rewrite run_snoc in E. destruct (ck_run wall tr0 ck_start) as [[c0 l0]|]; [|discriminate]. apply in_time_pre in Ti as [Ti Le]. assert (T0 : tells wall tr0) by (intros x Hx; apply T; apply in_or_app; auto). specialize (IH T0 Ti _ _ eq_refl). destruct IH as [So (s & En & Hs & F & Sm)].
  assert (Old : forall s, (exists e, In e tr0 /\ instant e = s) -> exists e', In e' (tr0 ++ [e]) /\ instant e' = s) by (intros s' (x & Hx & Ex); exists x; split; [apply in_or_app; auto|exact Ex]).
  assert (New : exists e', In e' (tr0 ++ [e]) /\ instant e' = instant e) by (exists e; split; [apply in_or_app; right; left; reflexivity|reflexivity]).
  assert (Ls : s <= instant e) by (destruct Hs as (x & Hx & <-); apply Le; exact Hx).
  destruct (ck_step wall c0 e) as [[c1 o]|] eqn:Es; [|discriminate]. injection E as <- <-. destruct e as [i|i|i]; cbn [ck_step] in Es.
  - injection Es as <- <-. unfold touch. rewrite En, told_back by (destruct Hs as (x & Hx & <-); apply T0; exact Hx). split; [apply sorted_snoc; assumption|]. exists s. cbn. split; [reflexivity|]. split; [auto|]. split; [apply Forall_app; split; [exact F|repeat constructor; lia]|].
    intros m Hm. destruct (Sm m Hm) as (k & -> & Hk & Hi). exists k. auto.
  - destruct (ck_sample c0) eqn:Ec; [discriminate|]. injection Es as <- <-. rewrite app_nil_r. split; [exact So|]. exists s. cbn. split; [exact En|]. split; [auto|]. split; [exact F|].
    intros m Hm. injection Hm as <-. exists i. auto.
  - destruct (ck_sample c0) as [m|] eqn:Ec; [|discriminate]. injection Es as <- <-. rewrite app_nil_r. split; [exact So|]. destruct (Sm m eq_refl) as (k & -> & Hk & Hi). exists k. cbn. split; [reflexivity|]. split; [auto|]. split; [|discriminate].
    eapply Forall_impl; [|exact F]. intros v Hv. cbn in *. pose proof (St _ _ Hk). lia.
Qed.
End P.
