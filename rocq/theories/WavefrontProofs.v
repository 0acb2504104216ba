(** * Proofs about the wavefront sink. *)
From Verif Require Import Base BaseFacts TelemetryModel BucketsModel FiltersModel FiltersProofs CacheModel CacheProofs CacheProps WavefrontModel WavefrontSpec.
Open Scope string_scope. Open Scope list_scope. Open Scope nat_scope.

Section Proofs.
Context `{Q : QLib}.
Variable hkind : list string -> method -> N.
Notation hash := (t_hash hkind).
Definition same_hash (t x : telemetry) : Prop := hash t = hash x.
Hint Unfold same_hash : core.

Section Padded.
Variable span : Z.
Variable last_seen : list (N * Z).
Variable control : pad_control.
Hypothesis span_nz : span <> 0%Z.
Notation next := (ps_next hkind span last_seen control).
Notation drain := (ps_drain hkind span last_seen control).

Inductive seen_status := Unseen | Late | Close | Gapped (ts : Z).
Definition status (fp : list N) (x : telemetry) : seen_status :=
  if existsb (N.eqb (hash x)) fp then Unseen
  else match alookup N.eqb (hash x) last_seen with
       | None => Unseen
       | Some ts => if (ts <? t_timestamp x)%Z
                    then if (1 <? Z.quot (wrap64 (t_timestamp x - ts)) span)%Z then Gapped ts else Close
                    else Late
       end.
Definition zpost x := PZero x (sat_add1 (t_timestamp x)).
Definition zsub x := PZero x (sat_sub1 (t_timestamp x)).
Definition near (x y : telemetry) : bool :=
  let q := Z.quot (abs64 (wrap64 (t_timestamp x - t_timestamp y))) span in orb (Z.eqb q 0) (Z.eqb q 1).
Definition bridge (x y : telemetry) : list pad := if near x y then [] else [zpost x; zsub y].
Definition lead (st : seen_status) (x : telemetry) : list pad :=
  match st with Gapped ts => [PZero x (sat_add1 ts); zsub x] | _ => [] end.
Definition fp' (st : seen_status) (x : telemetry) (fp : list N) : list N :=
  match st with Gapped _ | Close => hash x :: fp | _ => fp end.
Fixpoint padded (fp : list N) (x : telemetry) (r : list telemetry) : list pad :=
  match r with
  | [] => if p_skip control (PTelem x) then [PTelem x] else lead (status fp x) x ++ [PTelem x]
  | y :: r' =>
      if N.eqb (hash x) (hash y) then
        if p_skip control (PTelem x) then PTelem x :: padded fp y r'
        else match status fp x with
             | Late => PTelem x :: padded fp y r'
             | st => lead st x ++ PTelem x :: bridge x y ++ padded (fp' st x fp) y r'
             end
      else PTelem x :: padded fp y r'
  end.

Lemma drain_step s p s' out : next s = NItem p s' -> (exists n, drain n s' = Some out) -> exists n, drain n s = Some (p :: out).
Proof. intros H [n Hn]. exists (S n). cbn. rewrite H, Hn. reflexivity. Qed.
Lemma drain_more n s out : drain n s = Some out -> forall m, n <= m -> drain m s = Some out.
Proof.
  revert s out. induction n as [|n IH]; intros s out H m Hm.
  - cbn in H. destruct m; cbn; destruct (next s); auto; discriminate.
  - destruct m as [|m]; [lia|]. cbn in *. destruct (next s) as [|p s'|]; auto.
    destruct (drain n s') as [o|] eqn:E; [|discriminate]. rewrite (IH _ _ E m) by lia. assumption.
Qed.
Definition st_q (r : list telemetry) (q : list pad) (fp : list N) := mkPS r q fp.

Lemma next_zero r t ts y q fp : hash t = hash (p_point y) -> next (mkPS r (PZero t ts :: y :: q) fp) = NItem (PZero t ts) (mkPS r (y :: q) fp).
Proof. intros H. unfold ps_next. cbn [ps_pull ps_q ps_orig ps_padded]. unfold p_hash at 1 2. cbn [p_point]. rewrite H, N.eqb_refl. reflexivity. Qed.

Lemma pull_eq x r fp : next (mkPS (x :: r) [] fp) = next (mkPS r [PTelem x] fp).
Proof. reflexivity. Qed.

Lemma gap_steps x y r fp out : hash x = hash y ->
  (exists n, drain n (mkPS r [PTelem y] fp) = Some out) ->
  exists n, drain n (mkPS r (bridge x y ++ [PTelem y]) fp) = Some (bridge x y ++ out).
Proof.
  intros He Hn. unfold bridge. destruct (near x y); [exact Hn|]. cbn [app].
  eapply drain_step; [apply next_zero; cbn; assumption|]. eapply drain_step; [apply next_zero; reflexivity|]. exact Hn.
Qed.
(** the step on two equal-hash points when no lead is due *)
Lemma next_pair x y r q fp : hash x = hash y -> p_skip control (PTelem x) = false ->
  next (mkPS r (PTelem x :: PTelem y :: q) fp) =
  match status fp x with
  | Late => NItem (PTelem x) (mkPS r (PTelem y :: q) fp)
  | Gapped ts => NItem (PZero x (sat_add1 ts)) (mkPS r (zsub x :: PTelem x :: PTelem y :: q) (hash x :: fp))
  | st => NItem (PTelem x) (mkPS r (bridge x y ++ PTelem y :: q) (fp' st x fp))
  end.
Proof.
  intros He Hs. unfold ps_next. cbn [ps_pull ps_q ps_orig ps_padded]. unfold p_hash. cbn [p_point p_time]. rewrite He, N.eqb_refl, <- He, Hs.
  unfold status, bridge, near. destruct (Z.eqb_spec span 0) as [|_]; [contradiction|].
  destruct (existsb (N.eqb (hash x)) fp).
  - cbn [fp']. destruct (_ || _); reflexivity.
  - destruct (alookup N.eqb (hash x) last_seen) as [ts|].
    + destruct (ts <? t_timestamp x)%Z; [|reflexivity]. destruct (1 <? _)%Z; [reflexivity|]. cbn [fp']. destruct (_ || _); reflexivity.
    + cbn [fp']. destruct (_ || _); reflexivity.
Qed.
Lemma next_pair_orig x y r fp : next (mkPS (y :: r) [PTelem x] fp) = next (mkPS r [PTelem x; PTelem y] fp).
Proof. reflexivity. Qed.
Lemma drain_first a b : next a = next b -> forall out, (exists n, drain n b = Some out) -> exists n, drain n a = Some out.
Proof. intros H out [n Hn]. exists n. destruct n; cbn in *; rewrite H; exact Hn. Qed.

Lemma status_marked fp x h : h = hash x -> status (h :: fp) x = Unseen.
Proof. intros ->. unfold status. cbn. rewrite N.eqb_refl. reflexivity. Qed.
Lemma status_ext fp x y : hash x = hash y -> (status fp x = Unseen \/ exists st, (st = Close \/ exists ts, st = Gapped ts) /\ status fp x = st) ->
  status (fp' (status fp x) x fp) y = Unseen.
Proof.
  intros He [H|(st & Hst & H)].
  - rewrite H. cbn [fp']. unfold status in *. rewrite <- He. destruct (existsb _ fp); [reflexivity|].
    destruct (alookup N.eqb (hash x) last_seen) as [ts|]; [|reflexivity]. destruct (ts <? t_timestamp x)%Z; [|discriminate]. destruct (1 <? _)%Z; discriminate.
  - rewrite H. destruct Hst as [->|[ts ->]]; apply status_marked; assumption.
Qed.

Lemma drain_padded r : forall x fp, exists n, drain n (mkPS r [PTelem x] fp) = Some (padded fp x r).
Proof.
  induction r as [|y r IH]; intros x fp.
  - cbn [padded]. destruct (p_skip control (PTelem x)) eqn:Hs.
    + exists 1. cbn [ps_drain]. unfold ps_next. cbn [ps_pull ps_q ps_orig ps_padded]. rewrite Hs. reflexivity.
    + assert (Hlast : forall f, status f x = Unseen \/ status f x = Late \/ status f x = Close -> exists n, drain n (mkPS [] [PTelem x] f) = Some [PTelem x]).
      { intros f Hf. exists 1. cbn [ps_drain]. unfold ps_next. cbn [ps_pull ps_q ps_orig ps_padded]. rewrite Hs. unfold p_hash. cbn [p_point p_time].
        destruct (Z.eqb_spec span 0) as [|_]; [contradiction|]. unfold status in Hf. destruct (existsb (N.eqb (hash x)) f); [reflexivity|].
        destruct (alookup N.eqb (hash x) last_seen) as [ts|]; [|reflexivity]. destruct (ts <? t_timestamp x)%Z; [|reflexivity].
        destruct (1 <? _)%Z; [destruct Hf as [|[|]]; discriminate|reflexivity]. }
      destruct (status fp x) as [| | |ts] eqn:Est; cbn [lead app]; try (apply Hlast; rewrite Est; auto; fail).
      eapply drain_step.
      * unfold ps_next. cbn [ps_pull ps_q ps_orig ps_padded]. rewrite Hs. unfold p_hash. cbn [p_point p_time]. destruct (Z.eqb_spec span 0) as [|_]; [contradiction|].
        unfold status in Est. destruct (existsb (N.eqb (hash x)) fp); [discriminate|]. destruct (alookup N.eqb (hash x) last_seen) as [ts'|]; [|discriminate].
        destruct (ts' <? t_timestamp x)%Z; [|discriminate]. destruct (1 <? _)%Z; [|discriminate]. injection Est as ->. reflexivity.
      * cbn [app ps_orig ps_q ps_padded]. eapply drain_step; [apply next_zero; reflexivity|]. apply Hlast. left. apply status_marked. reflexivity.
  - cbn [padded]. destruct (N.eqb_spec (hash x) (hash y)) as [He|He].
    + destruct (p_skip control (PTelem x)) eqn:Hs.
      * eapply drain_step; [|apply IH]. unfold ps_next. cbn [ps_pull ps_q ps_orig ps_padded]. unfold p_hash. cbn [p_point]. rewrite He, N.eqb_refl, Hs. reflexivity.
      * apply (drain_first _ _ (next_pair_orig x y r fp)). pose proof (next_pair x y r [] fp He Hs) as Hnx.
        destruct (status fp x) as [| | |ts] eqn:Est; cbn [lead app fp'] in *.
        -- eapply drain_step; [exact Hnx|]. apply gap_steps; [assumption|apply IH].
        -- eapply drain_step; [exact Hnx|]. apply IH.
        -- eapply drain_step; [exact Hnx|]. apply gap_steps; [assumption|apply IH].
        -- eapply drain_step; [exact Hnx|]. eapply drain_step; [apply next_zero; reflexivity|].
           pose proof (next_pair x y r [] (hash x :: fp) He Hs) as Hnx2. rewrite status_marked in Hnx2 by reflexivity. cbn [fp'] in Hnx2.
           eapply drain_step; [exact Hnx2|]. apply gap_steps; [assumption|apply IH].
    + eapply drain_step; [|apply IH]. unfold ps_next. cbn [ps_pull ps_q ps_orig ps_padded]. unfold p_hash. cbn [p_point].
      destruct (N.eqb_spec (hash x) (hash y)); [contradiction|]. reflexivity.
Qed.
Definition padded_stream (l : list telemetry) : list pad := match l with [] => [] | x :: r => padded [] x r end.
Lemma drain_stream l : exists n, forall m, n <= m -> drain m (padding l) = Some (padded_stream l).
Proof.
  destruct l as [|x r]; [exists 0; intros m _; destruct m; reflexivity|].
  destruct (drain_padded r x []) as [n Hn]. destruct (drain_first (padding (x :: r)) _ (pull_eq x r []) _ (ex_intro _ n Hn)) as [k Hk].
  exists k. intros m Hm. eapply drain_more; eassumption.
Qed.
Lemma drain_stream_eq l n out : drain n (padding l) = Some out -> out = padded_stream l.
Proof.
  intros H. destruct (drain_stream l) as [k Hk]. pose proof (drain_more _ _ _ H (n + k) ltac:(lia)) as H1. rewrite (Hk (n + k)) in H1 by lia. congruence.
Qed.

(** ** what the padded stream looks like *)
(** the stream from [x] on is its lead, [x] itself, and a rest; the lead is empty unless gapped *)
Lemma bridge_zeros x y : hash x = hash y -> List.length (bridge x y) <= 2 /\ Forall (fun z => exists t ts, z = PZero t ts /\ same_hash t y) (bridge x y).
Proof.
  intros He. unfold bridge. destruct (near x y); cbn; split; auto. unfold zpost, zsub. repeat constructor; eauto.
Qed.
Lemma padded_woven r : forall x fp, exists zs out,
  padded fp x r = zs ++ PTelem x :: out /\ (zs = [] \/ exists ts, status fp x = Gapped ts /\ zs = lead (Gapped ts) x) /\
  woven same_hash r out.
Proof.
  assert (W : forall y r fp zs out pre, padded fp y r = zs ++ PTelem y :: out -> (zs = [] \/ exists ts, status fp y = Gapped ts /\ zs = lead (Gapped ts) y) ->
     woven same_hash r out -> List.length pre <= 2 -> Forall (fun z => exists t ts, z = PZero t ts /\ same_hash t y) pre -> (pre = [] \/ status fp y = Unseen) ->
     woven same_hash (y :: r) (pre ++ padded fp y r)).
  { clear r. intros y r fp zs out pre E Hz Hw Hl Hf Hp. rewrite E, app_assoc. constructor; [| |assumption].
    - destruct Hp as [->|Hp].
      + cbn. destruct Hz as [->|(ts & _ & ->)]; cbn; lia.
      + destruct Hz as [->|(ts & H & _)]; [rewrite app_nil_r; assumption|congruence].
    - apply Forall_app. split; [assumption|]. destruct Hz as [->|(ts & _ & ->)]; [constructor|]. cbn. unfold zsub. repeat constructor; eauto. }
  induction r as [|y r IH]; intros x fp.
  - cbn [padded]. destruct (p_skip control (PTelem x)).
    + exists [], []. cbn. auto using woven_nil.
    + exists (lead (status fp x) x), []. split; [reflexivity|]. split; [|constructor]. destruct (status fp x) as [| | |ts] eqn:E; cbn; auto. right; exists ts; auto.
  - cbn [padded].
    assert (Plain : exists zs out, PTelem x :: padded fp y r = zs ++ PTelem x :: out /\ (zs = [] \/ exists ts, status fp x = Gapped ts /\ zs = lead (Gapped ts) x) /\ woven same_hash (y :: r) out).
    { destruct (IH y fp) as (zs & out & E & Hz & Hw). exists [], (padded fp y r). split; [reflexivity|]. split; [auto|].
      apply (W y r fp zs out [] E Hz Hw); cbn; auto. }
    destruct (N.eqb_spec (hash x) (hash y)) as [He|He]; [|exact Plain].
    destruct (p_skip control (PTelem x)); [exact Plain|].
    assert (Bridged : (status fp x = Unseen \/ exists st, (st = Close \/ exists ts, st = Gapped ts) /\ status fp x = st) ->
      exists zs out, lead (status fp x) x ++ PTelem x :: bridge x y ++ padded (fp' (status fp x) x fp) y r = zs ++ PTelem x :: out /\
       (zs = [] \/ exists ts, status fp x = Gapped ts /\ zs = lead (Gapped ts) x) /\ woven same_hash (y :: r) out).
    { intros Hst. destruct (IH y (fp' (status fp x) x fp)) as (zs & out & E & Hz & Hw).
      exists (lead (status fp x) x), (bridge x y ++ padded (fp' (status fp x) x fp) y r). split; [reflexivity|].
      split; [destruct (status fp x) as [| | |ts]; cbn; auto; right; exists ts; auto|].
      destruct (bridge_zeros x y He) as [B1 B2]. apply (W y r _ zs out _ E Hz Hw B1 B2). right. apply status_ext; assumption. }
    destruct (status fp x) as [| | |ts] eqn:Est.
    + apply Bridged. auto.
    + exact Plain.
    + apply Bridged. right. exists Close. auto.
    + apply Bridged. right. exists (Gapped ts). split; [right; exists ts; reflexivity|reflexivity].
Qed.
Lemma stream_woven l : woven same_hash l (padded_stream l).
Proof.
  destruct l as [|x r]; [constructor|]. cbn [padded_stream]. destruct (padded_woven r x []) as (zs & out & E & Hz & Hw). rewrite E. constructor; [| |assumption].
  - destruct Hz as [->|(ts & _ & ->)]; cbn; lia.
  - destruct Hz as [->|(ts & _ & ->)]; [constructor|]. cbn. unfold zsub. repeat constructor; eauto.
Qed.
Lemma originals_app a b : originals (a ++ b) = originals a ++ originals b.
Proof. apply flat_map_app. Qed.
Lemma zeros_originals zs (P : telemetry -> Prop) : Forall (fun z => exists t ts, z = PZero t ts /\ P t) zs -> originals zs = [].
Proof. induction 1 as [|z zs (t & ts & -> & _) _ IH]; [reflexivity|]. cbn. exact IH. Qed.
Lemma woven_impl (R S : telemetry -> telemetry -> Prop) l out : woven R l out ->
  (forall t ts x, In (PZero t ts) out -> In x l -> R t x -> S t x) -> woven S l out.
Proof.
  induction 1 as [|zs x l out Hl Hz Hw IH]; intros HS; [constructor|]. constructor; [assumption| |].
  - rewrite Forall_forall in *. intros z Hin. destruct (Hz z Hin) as (t & ts & -> & HR). exists t, ts. split; [reflexivity|].
    apply (HS t ts); [apply in_or_app; auto|left; reflexivity|assumption].
  - apply IH. intros t ts y H1 H2 H3. apply (HS t ts); [apply in_or_app; right; right; assumption|right; assumption|assumption].
Qed.
Lemma padded_points r : forall x fp p, In p (padded fp x r) -> In (p_point p) (x :: r).
Proof.
  induction r as [|y r IH]; intros x fp p Hp.
  - cbn [padded] in Hp. destruct (p_skip control (PTelem x)); [destruct Hp as [<-|[]]; left; reflexivity|].
    apply in_app_or in Hp as [Hp|[<-|[]]]; [|left; reflexivity]. destruct (status fp x); cbn in Hp; try contradiction. destruct Hp as [<-|[<-|[]]]; left; reflexivity.
  - assert (Hr : forall f, In p (padded f y r) -> In (p_point p) (x :: y :: r)) by (intros f H; right; eapply IH; eassumption).
    assert (Plain : In p (PTelem x :: padded fp y r) -> In (p_point p) (x :: y :: r)) by (intros [<-|H]; [left; reflexivity|eapply Hr; eassumption]).
    cbn [padded] in Hp. destruct (N.eqb (hash x) (hash y)); [|auto]. destruct (p_skip control (PTelem x)); [auto|].
    assert (B : forall st f, In p (lead st x ++ PTelem x :: bridge x y ++ padded f y r) -> In (p_point p) (x :: y :: r)).
    { intros st f H. apply in_app_or in H as [H|[<-|H]]; [|left; reflexivity|].
      - destruct st; cbn in H; try contradiction. destruct H as [<-|[<-|[]]]; left; reflexivity.
      - apply in_app_or in H as [H|H]; [|eapply Hr; eassumption]. unfold bridge in H. destruct (near x y); [contradiction|].
        destruct H as [<-|[<-|[]]]; cbn; auto. }
    destruct (status fp x); eauto.
Qed.
Lemma woven_originals R l out : woven R l out -> originals out = l.
Proof.
  induction 1 as [|zs x l out Hl Hz Hw IH]; [reflexivity|]. rewrite originals_app. rewrite (zeros_originals zs _ Hz). cbn. f_equal. exact IH.
Qed.
Lemma padded_originals r x fp : originals (padded fp x r) = x :: r.
Proof.
  destruct (padded_woven r x fp) as (zs & out & E & Hz & Hw). rewrite E, originals_app.
  assert (Z : originals zs = []) by (destruct Hz as [->|(ts & _ & ->)]; reflexivity). rewrite Z. cbn. f_equal. eapply woven_originals; eassumption.
Qed.

(** one step: the stream from [x] is something with original [x], then the stream from the next point *)
Lemma padded_step x y r fp : exists pre fp2, padded fp x (y :: r) = pre ++ padded fp2 y r /\ originals pre = [x] /\ (forall h, In h fp2 -> h = hash x \/ In h fp).
Proof.
  cbn [padded].
  assert (Plain : exists pre fp2, PTelem x :: padded fp y r = pre ++ padded fp2 y r /\ originals pre = [x] /\ (forall h, In h fp2 -> h = hash x \/ In h fp)).
  { exists [PTelem x], fp. cbn. auto. }
  destruct (N.eqb (hash x) (hash y)); [|exact Plain]. destruct (p_skip control (PTelem x)); [exact Plain|].
  assert (B : exists pre fp2, lead (status fp x) x ++ PTelem x :: bridge x y ++ padded (fp' (status fp x) x fp) y r = pre ++ padded fp2 y r /\ originals pre = [x] /\ (forall h, In h fp2 -> h = hash x \/ In h fp)).
  { exists (lead (status fp x) x ++ PTelem x :: bridge x y), (fp' (status fp x) x fp). split; [rewrite <- app_assoc; reflexivity|]. split.
    - rewrite originals_app. assert (originals (lead (status fp x) x) = []) as -> by (destruct (status fp x); reflexivity). cbn.
      unfold bridge. destruct (near x y); reflexivity.
    - intros h. unfold fp'. destruct (status fp x); cbn; intuition. }
  destruct (status fp x); auto.
Qed.

Lemma padded_pair x y r fp : hash x = hash y -> p_skip control (PTelem x) = false -> status fp x <> Late ->
  padded fp x (y :: r) = lead (status fp x) x ++ PTelem x :: bridge x y ++ padded (fp' (status fp x) x fp) y r.
Proof. intros He Hs Hst. cbn [padded]. rewrite He, N.eqb_refl, Hs. destruct (status fp x); [reflexivity|contradiction|reflexivity|reflexivity]. Qed.
Lemma gap_inside l1 : forall x0 r x y l2 fp, x0 :: r = l1 ++ x :: y :: l2 ->
  hash x = hash y -> p_skip control (PTelem x) = false ->
  (forall ts, alookup N.eqb (hash x) last_seen = Some ts -> (ts < t_timestamp x)%Z) ->
  exists o1 o2, padded fp x0 r = o1 ++ (PTelem x :: bridge x y ++ [PTelem y]) ++ o2 /\ originals o1 = l1 /\ originals o2 = l2.
Proof.
  induction l1 as [|a l1 IH]; intros x0 r x y l2 fp E He Hs Hts.
  - cbn in E. injection E as -> ->.
    assert (Hst : status fp x <> Late).
    { unfold status. destruct (existsb _ fp); [discriminate|]. destruct (alookup N.eqb (hash x) last_seen) as [ts|]; [|discriminate].
      specialize (Hts ts eq_refl). apply Z.ltb_lt in Hts. rewrite Hts. destruct (1 <? _)%Z; discriminate. }
    rewrite (padded_pair x y l2 fp He Hs Hst).
    destruct (padded_woven l2 y (fp' (status fp x) x fp)) as (zs & out & Eo & Hz & Hw).
    assert (Hun : status (fp' (status fp x) x fp) y = Unseen).
    { apply status_ext; [assumption|]. destruct (status fp x) as [| | |ts]; [left; reflexivity|contradiction|right; exists Close; auto|right; exists (Gapped ts); eauto]. }
    destruct Hz as [->|(ts & Hz & _)]; [|congruence]. rewrite Eo. exists (lead (status fp x) x), out. split; [cbn; rewrite <- app_assoc; reflexivity|].
    split; [destruct (status fp x); reflexivity|eapply woven_originals; eassumption].
  - cbn in E. injection E as -> Er. destruct r as [|y0 r0]; [destruct l1; discriminate|].
    destruct (padded_step a y0 r0 fp) as (pre & fp2 & Ep & Ho & _). rewrite Ep.
    destruct (IH y0 r0 x y l2 fp2 Er He Hs Hts) as (o1 & o2 & E1 & E2 & E3). rewrite E1.
    exists (pre ++ o1), o2. split; [rewrite app_assoc; reflexivity|]. split; [rewrite originals_app, Ho, E2; reflexivity|assumption].
Qed.
Lemma gap_before l1 : forall x0 r x l2 fp ts, x0 :: r = l1 ++ x :: l2 -> ~ In (hash x) fp -> (forall t, In t l1 -> hash t <> hash x) ->
  match l2 with [] => True | y :: _ => hash y = hash x end ->
  p_skip control (PTelem x) = false -> alookup N.eqb (hash x) last_seen = Some ts -> (ts < t_timestamp x)%Z ->
  (1 <? Z.quot (wrap64 (t_timestamp x - ts)) span)%Z = true ->
  exists o1 o2, padded fp x0 r = o1 ++ [PZero x (sat_add1 ts); zsub x; PTelem x] ++ o2 /\ originals o1 = l1 /\ originals o2 = l2.
Proof.
  induction l1 as [|a l1 IH]; intros x0 r x l2 fp ts E Hfp Hl Hy Hs Hts Hlt Hq.
  - cbn in E. injection E as -> ->.
    assert (Hst : status fp x = Gapped ts).
    { unfold status. destruct (existsb (N.eqb (hash x)) fp) eqn:Ee.
      - apply existsb_exists in Ee as (h & Hh & Ee). apply N.eqb_eq in Ee. subst h. contradiction.
      - rewrite Hts. apply Z.ltb_lt in Hlt. rewrite Hlt, Hq. reflexivity. }
    pose proof (padded_originals l2 x fp) as Ho. destruct l2 as [|y l2]; cbn [padded] in *.
    + rewrite Hs, Hst. exists [], []. cbn. auto.
    + rewrite Hy, N.eqb_refl, Hs, Hst in *. cbn [lead app] in *. eexists []; eexists. split; [reflexivity|]. split; [reflexivity|].
      cbn in Ho. injection Ho as Ho. exact Ho.
  - cbn in E. injection E as -> Er. destruct r as [|y0 r0]; [destruct l1; discriminate|].
    destruct (padded_step a y0 r0 fp) as (pre & fp2 & Ep & Ho & Hf2). rewrite Ep.
    destruct (IH y0 r0 x l2 fp2 ts Er) as (o1 & o2 & E1 & E2 & E3); auto.
    + intros Hin. destruct (Hf2 _ Hin) as [H|H]; [|contradiction]. apply (Hl a (or_introl eq_refl)). symmetry. exact H.
    + intros t Ht. apply Hl. right; assumption.
    + rewrite E1. exists (pre ++ o1), o2. split; [rewrite app_assoc; reflexivity|]. split; [rewrite originals_app, Ho, E2; reflexivity|assumption].
Qed.
End Padded.

(** ** text *)
Variable show_f : f64 -> string.
Variable show_n : N -> string.
Variable show_z : Z -> string.
Definition direct (p : piece) : string :=
  match p with PStr s => s | PF x => show_f x | PN n => show_n n | PT z => show_z z end.
Definition caches_ok (c : caches) : Prop :=
  (exists vs, cinv fcmp show_f vs (ca_f c)) /\ (exists vs, cinv ncmp show_n vs (ca_n c)) /\ (exists vs, cinv zcmp show_z vs (ca_z c)).
Lemma caches_ok_nil : caches_ok (mkCaches [] [] []).
Proof. repeat split; exists []; apply cinv_nil. Qed.
Hypothesis show_same : forall a b, feqb a b = true -> show_f a = show_f b.

Lemma sapp_assoc a b c : ((a ++ b) ++ c = a ++ (b ++ c))%string.
Proof. induction a as [|ch a IH]; [reflexivity|]. cbn. rewrite IH. reflexivity. Qed.
Lemma sapp_nil a : (a ++ "" = a)%string.
Proof. induction a as [|ch a IH]; [reflexivity|]. cbn. rewrite IH. reflexivity. Qed.
Lemma texts_cons a l : texts (a :: l) = (a ++ texts l)%string.
Proof. reflexivity. Qed.
Lemma texts_app a b : texts (a ++ b) = (texts a ++ texts b)%string.
Proof. induction a as [|x a IH]; [reflexivity|]. cbn [app]. rewrite !texts_cons, IH, sapp_assoc. reflexivity. Qed.

Lemma emit_direct ps : forall c c' s, caches_ok c -> emit show_f show_n show_z c ps = Some (c', s) ->
  s = texts (map direct ps) /\ caches_ok c' /\ ~ In (PF fnan) ps.
Proof.
  induction ps as [|p ps IH]; intros c c' s Hc E.
  - cbn in E. injection E as <- <-. cbn. auto.
  - cbn [emit] in E. destruct Hc as ((vf & Hf) & (vn & Hn) & (vz & Hz)).
    assert (G : forall c1 s1, caches_ok c1 -> s1 = direct p -> p <> PF fnan ->
       match emit show_f show_n show_z c1 ps with Some (c'', s') => Some (c'', (s1 ++ s')%string) | None => None end = Some (c', s) ->
       s = texts (map direct (p :: ps)) /\ caches_ok c' /\ ~ In (PF fnan) (p :: ps)).
    { intros c1 s1 Hc1 Hs1 Hp E1. destruct (emit show_f show_n show_z c1 ps) as [[c2 s2]|] eqn:E2; [|discriminate]. injection E1 as <- <-.
      destruct (IH _ _ _ Hc1 E2) as (I1 & I2 & I3). cbn [map]. rewrite texts_cons, <- I1, Hs1. split; [reflexivity|]. split; [assumption|]. intros [H|H]; [congruence|contradiction]. }
    destruct p as [str|x|n|z].
    + apply (G c str); [repeat split; eauto|reflexivity|discriminate|exact E].
    + destruct (cache_get fcmp show_f (ca_f c) x) as [[f1 s1]|] eqn:Eg; [|discriminate].
      assert (Hx : x <> fnan) by (intros ->; rewrite C43_refuted in Eg; discriminate).
      destruct (cache_get_spec fcmp show_f fcmp_order vf (ca_f c) x Hf) as (c1 & w & E1 & E2 & E3); [apply fcmp_fine; assumption|].
      rewrite E1 in Eg. injection Eg as <- <-. apply (G (mkCaches c1 (ca_n c) (ca_z c)) (show_f w)); [repeat split; cbn; eauto| |congruence|exact E].
      cbn. apply find_some in E2 as [_ E2]. apply show_same. exact E2.
    + change (fun a b : N => Some (N.compare a b)) with ncmp in E. destruct (cache_get ncmp show_n (ca_n c) n) as [[f1 s1]|] eqn:Eg; [|discriminate].
      destruct (cache_get_spec ncmp show_n ncmp_order vn (ca_n c) n Hn) as (c1 & w & E1 & E2 & E3); [unfold fine, ncmp; rewrite N.compare_refl; reflexivity|].
      rewrite E1 in Eg. injection Eg as <- <-. apply (G (mkCaches (ca_f c) c1 (ca_z c)) (show_n w)); [repeat split; cbn; eauto| |discriminate|exact E].
      cbn. apply find_some in E2 as [_ E2]. unfold same, ncmp in E2. destruct (N.compare_spec w n); [subst; reflexivity|discriminate|discriminate].
    + change (fun a b : Z => Some (Z.compare a b)) with zcmp in E. destruct (cache_get zcmp show_z (ca_z c) z) as [[f1 s1]|] eqn:Eg; [|discriminate].
      destruct (cache_get_spec zcmp show_z zcmp_order vz (ca_z c) z Hz) as (c1 & w & E1 & E2 & E3); [unfold fine, zcmp; rewrite Z.compare_refl; reflexivity|].
      rewrite E1 in Eg. injection Eg as <- <-. apply (G (mkCaches (ca_f c) (ca_n c) c1) (show_z w)); [repeat split; cbn; eauto| |discriminate|exact E].
      cbn. apply find_some in E2 as [_ E2]. unfold same, zcmp in E2. destruct (Z.compare_spec w z); [subst; reflexivity|discriminate|discriminate].
Qed.
Lemma fmt_tags_text l : fmt_tags l = tags_text l.
Proof.
  unfold tags_text. destruct l as [|[k v] r]; [reflexivity|]. cbn [fmt_tags map fst snd].
  assert (G : forall a, (a ++ String.concat "" (map (fun kv => " " ++ fst kv ++ "=" ++ snd kv) r) = String.concat " " (a :: map (fun kv => fst kv ++ "=" ++ snd kv) r))%string).
  { induction r as [|[k1 v1] r IH]; intros a; [cbn; apply sapp_nil|].
    cbn [map fst snd]. change (String.concat " " (a :: (k1 ++ "=" ++ v1)%string :: map (fun kv => (fst kv ++ "=" ++ snd kv)%string) r)) with
      (a ++ " " ++ String.concat " " ((k1 ++ "=" ++ v1)%string :: map (fun kv => (fst kv ++ "=" ++ snd kv)%string) r))%string.
    rewrite <- IH. destruct r as [|b r']; [cbn; rewrite sapp_nil; reflexivity|]. cbn [map String.concat]. rewrite !sapp_assoc. reflexivity. }
  rewrite <- G. rewrite !sapp_assoc. reflexivity.
Qed.
Lemma map_direct_texts_flat {A} (f : A -> list piece) l : texts (map direct (flat_map f l)) = texts (map (fun a => texts (map direct (f a))) l).
Proof. induction l as [|a l IH]; [reflexivity|]. cbn [flat_map map]. rewrite map_app, texts_app, IH. reflexivity. Qed.

Ltac strs := repeat (progress (rewrite ?sapp_assoc, ?sapp_nil; cbn [String.append])).
Lemma fmt_val_text tags percentiles t ps : fmt_val tags percentiles t = Some ps ->
  texts (map direct ps) = point_text show_f show_n show_z tags percentiles t.
Proof.
  unfold fmt_val, point_text. rewrite fmt_tags_text. set (tg := tags_text (tag_iter (t_tags t) tags)).
  unfold t_kind, point_lines, t_sum, t_set, t_bins, t_query. destruct (t_value t) as [x|x|h|c sm] eqn:Ev; cbn [value_kind value_sum value_set value_bins value_query].
  - intros [= <-]. cbn. rewrite ?sapp_assoc, ?sapp_nil. reflexivity.
  - intros [= <-]. cbn. rewrite ?sapp_assoc, ?sapp_nil. reflexivity.
  - intros [= <-]. rewrite map_direct_texts_flat, map_map. f_equal. apply map_ext. intros [b n]. cbn.
    destruct b; cbn; rewrite ?sapp_assoc, ?sapp_nil; reflexivity.
  - intros E. match type of E with ?go percentiles = _ => set (g := go) in E end.
    assert (G : forall pl ps, g pl = Some ps -> texts (map direct ps) =
       texts (map (line_text show_f show_n show_z tg (t_timestamp t))
         (map (fun p => ((t_name t ++ "." ++ fst p)%string, WF (match c_query c (snd p) with Some (_, x) => x | None => fnan end))) pl
          ++ [((t_name t ++ ".count")%string, WN (t_count t)); ((t_name t ++ ".mean")%string, WF (match c_cma c with Some m => m | None => fzero end))]))).
    { induction pl as [|[stat quant] pl IH]; intros ps0 E0.
      - cbn [g] in E0. injection E0 as <-. unfold t_mean. rewrite Ev. cbn. unfold line_text, nl. cbn. strs. reflexivity.
      - cbn [g] in E0. fold g in E0. destruct (option_map snd (c_query c quant)) as [v|] eqn:Eq; [|discriminate].
        destruct (g pl) as [rest|] eqn:Er; [|discriminate]. injection E0 as <-. cbn [map app fst snd].
        unfold texts at 2. cbn [fold_right]. fold (texts (map (line_text show_f show_n show_z tg (t_timestamp t))
         (map (fun p => ((t_name t ++ "." ++ fst p)%string, WF (match c_query c (snd p) with Some (_, x) => x | None => fnan end))) pl
          ++ [((t_name t ++ ".count")%string, WN (t_count t)); ((t_name t ++ ".mean")%string, WF (match c_cma c with Some m => m | None => fzero end))]))).
        rewrite <- (IH rest eq_refl). destruct (c_query c quant) as [[r0 x0]|]; [|discriminate]. cbn in Eq. injection Eq as <-.
        unfold line_text, nl. cbn. strs. reflexivity. }
    apply G. exact E.
Qed.
Lemma fmt_pads_text hfun c now pads : forall scratch ps, fmt_pads hfun c now scratch pads = Some ps ->
  exists points, Forall2 (shown now) pads points /\
    texts (map direct ps) = texts (map (point_text show_f show_n show_z (wc_tags c) (wc_percentiles c)) points).
Proof.
  induction pads as [|p pads IH]; intros scratch ps E.
  - cbn in E. injection E as <-. exists []. split; [constructor|reflexivity].
  - cbn [fmt_pads] in E. destruct (fmt_pad hfun c now scratch p) as [[s1 a]|] eqn:Ep; [|discriminate].
    destruct (fmt_pads hfun c now s1 pads) as [b|] eqn:Eb; [|discriminate]. injection E as <-.
    destruct (IH _ _ Eb) as (pts & Hf & Ht).
    assert (H1 : exists t, shown now p t /\ fmt_val (wc_tags c) (wc_percentiles c) t = Some a).
    { unfold fmt_pad in Ep. destruct p as [t ts|t]; cbn [shown].
      - destruct (zero_point now t ts) as [z|]; [|discriminate]. destruct (fmt_val _ _ z) as [q|] eqn:Ez; [|discriminate]. injection Ep as <- <-. exists z. auto.
      - destruct (if t_persist t then _ else _) as [sc|]; [|discriminate]. destruct (fmt_val _ _ t) as [q|] eqn:Ez; [|discriminate]. injection Ep as <- <-. exists t. auto. }
    destruct H1 as (t & H1 & H2). exists (t :: pts). split; [constructor; assumption|].
    rewrite map_app, texts_app, Ht, (fmt_val_text _ _ _ _ H2). reflexivity.
Qed.
Lemma format_text hfun c fuel now w w' : format_stats hkind hfun show_f show_n show_z c fuel now w = Some w' ->
  exists pads points, ps_drain hkind (wc_span c) (w_last w) (wc_pad c) fuel (padding (b_iter (w_aggrs w))) = Some pads /\
    Forall2 (shown now) pads points /\
    w_stats w' = (w_stats w ++ texts (map (point_text show_f show_n show_z (wc_tags c) (wc_percentiles c)) points))%string /\
    w_last w' = seen hkind pads (w_last w) /\ w_aggrs w' = b_reset now (w_aggrs w) /\ w_stream w' = w_stream w.
Proof.
  unfold format_stats. destruct (ps_drain _ _ _ _ _ _) as [pads|] eqn:Ed; [|discriminate].
  destruct (fmt_pads _ _ _ _ _) as [ps|] eqn:Ef; [|discriminate]. destruct (emit _ _ _ _ _) as [[c' text]|] eqn:Ee; [|discriminate].
  intros [= <-]. destruct (emit_direct _ _ _ _ caches_ok_nil Ee) as (-> & _ & _). destruct (fmt_pads_text _ _ _ _ _ _ Ef) as (pts & H1 & H2).
  exists pads, pts. cbn. rewrite H2. auto 10.
Qed.

(** ** flush *)
Lemma flush_loop_spec now ans : forall w w' log, flush_loop now w ans = Some (w', log) ->
  flushed (w_stats w) log /\ w_stats w' = "" /\ w_last w' = w_last w /\ w_aggrs w' = b_reset now (w_aggrs w).
Proof.
  induction ans as [|a ans IH]; intros w w' log E; [discriminate|]. cbn [flush_loop] in E.
  destruct a as [ok n|ok], (w_stream w).
  - destruct ok.
    + injection E as <- <-. cbn. split; [exists []; reflexivity|auto].
    + destruct (flush_loop _ _ ans) as [[w1 l]|] eqn:E1; [|discriminate]. injection E as <- <-.
      destruct (IH _ _ _ E1) as ((fails & ->) & H2 & H3 & H4). cbn in *. split; [exists (n :: fails); reflexivity|auto].
  - destruct ok; exact (IH _ _ _ E).
  - exact (IH _ _ _ E).
  - exact (IH _ _ _ E).
Qed.
Lemma flush_loop_connects now ans : forall w w' log, flush_loop now w ans = Some (w', log) ->
  List.length log <= (if w_stream w then 1 else 0) + connects ans.
Proof.
  unfold connects. induction ans as [|a ans IH]; intros w w' log E; [discriminate|]. cbn [flush_loop] in E. cbn [filter].
  destruct a as [ok n|ok], (w_stream w) eqn:Es.
  - destruct ok; [injection E as <- <-; cbn; lia|]. destruct (flush_loop _ _ ans) as [[w1 l]|] eqn:E1; [|discriminate]. injection E as <- <-.
    apply IH in E1. cbn in *. lia.
  - destruct ok; apply IH in E; rewrite Es in E; exact E.
  - apply IH in E. rewrite Es in E. destruct ok; cbn [List.length]; lia.
  - apply IH in E. cbn [w_stream] in E. destruct ok; cbn [List.length]; lia.
Qed.
(** the buffer of a run is one its own operations lead to *)
Lemma b_run_app hfun l1 : forall l2 b, b_run hfun b (l1 ++ l2) = match b_run hfun b l1 with Some b' => b_run hfun b' l2 | None => None end.
Proof. induction l1 as [|o l1 IH]; intros l2 b; [reflexivity|]. cbn [List.app b_run]. destruct (b_step hfun b o); [apply IH|reflexivity]. Qed.
Lemma w_run_b_run hfun c ops : forall w w' logs, w_run hkind hfun show_f show_n show_z c ops w = Some (w', logs) ->
  exists os, b_run hfun (w_aggrs w) os = Some (w_aggrs w').
Proof.
  induction ops as [|o ops IH]; intros w w' logs E; cbn [w_run] in E.
  - injection E as <- <-. exists []. reflexivity.
  - destruct o as [now t|fuel now now' ans].
    + destruct (w_deliver hfun c now t w) as [w1|] eqn:E1; [|discriminate]. apply IH in E as (os & E).
      unfold w_deliver in E1. destruct (b_add hfun (w_aggrs w) t) as [b|] eqn:Eb; destruct (wc_age c) as [age|]; try destruct (_ <=? _)%Z; try discriminate; injection E1 as <-;
        first [exists os; exact E|exists (BAdd t :: os); cbn [b_run b_step]; rewrite Eb; exact E].
    + destruct (w_flush _ _ _ _ _ _ _ _ _ _ _) as [[w1 l]|] eqn:E1; [|discriminate]. destruct (w_run _ _ _ _ _ c ops w1) as [[w2 ls]|] eqn:E2; [|discriminate].
      injection E as <- <-. apply IH in E2 as (os & E2). unfold w_flush in E1. destruct (format_stats _ _ _ _ _ _ _ _ _) as [wf|] eqn:Ef; [|discriminate].
      apply flush_loop_spec in E1 as (_ & _ & _ & F). unfold format_stats in Ef.
      destruct (ps_drain _ _ _ _ _ _) as [pads|]; [|discriminate]. destruct (fmt_pads _ _ _ _ _) as [ps|]; [|discriminate]. destruct (emit _ _ _ _ _) as [[c' text]|]; [|discriminate].
      injection Ef as <-. cbn [w_aggrs] in F. exists (BReset now :: BReset now' :: os). cbn [b_run b_step]. rewrite <- F. exact E2.
Qed.
Lemma flush_loop_ends now n ans : forall w, flush_loop now w (ans ++ [AConnect true; AWrite true n]) <> None.
Proof.
  induction ans as [|a ans IH]; intros w.
  - cbn. destruct (w_stream w) eqn:E; cbn; rewrite ?E; discriminate.
  - cbn [app flush_loop]. destruct a as [ok k|ok], (w_stream w); try apply IH; destruct ok; try apply IH; [discriminate|].
    intros H. destruct (flush_loop _ _ _) as [[w1 l]|] eqn:E in H; [discriminate|]. exact (IH _ E).
Qed.

(** ** last seen times *)
Lemma seen_app a b m : seen hkind (a ++ b) m = seen hkind b (seen hkind a m).
Proof. unfold seen. apply fold_left_app. Qed.
Lemma seen_other h ps : forall m, (forall p, In p ps -> p_hash hkind p <> h) -> alookup N.eqb h (seen hkind ps m) = alookup N.eqb h m.
Proof.
  induction ps as [|p ps IH]; intros m Hp; [reflexivity|]. cbn [seen fold_left]. fold (seen hkind ps (ainsert N.eqb (p_hash hkind p) (p_time p) m)).
  rewrite IH by (intros q Hq; apply Hp; right; assumption). apply (alookup_ainsert_ne N.eqb Neqb_eq). intros E. apply (Hp p (or_introl eq_refl)). congruence.
Qed.
Lemma seen_woven l out : woven same_hash l out -> forall h m,
  alookup N.eqb h (seen hkind out m) =
  match find (fun t => N.eqb (hash t) h) (rev l) with Some x => Some (t_timestamp x) | None => alookup N.eqb h m end.
Proof.
  assert (FA : forall (f : telemetry -> bool) a b, find f (a ++ b) = match find f a with Some x => Some x | None => find f b end).
  { intros f a b. induction a as [|x a IH]; [reflexivity|]. cbn. destruct (f x); [reflexivity|exact IH]. }
  induction 1 as [|zs x l out Hl Hz Hw IH]; intros h m; [reflexivity|].
  rewrite seen_app. cbn [rev]. rewrite FA. cbn [find]. change (seen hkind (PTelem x :: out) (seen hkind zs m)) with (seen hkind out (ainsert N.eqb (hash x) (t_timestamp x) (seen hkind zs m))).
  rewrite IH. destruct (find _ (rev l)); [reflexivity|]. destruct (N.eqb_spec (hash x) h) as [<-|Hn].
  - apply (alookup_ainsert_eq N.eqb Neqb_eq).
  - rewrite (alookup_ainsert_ne N.eqb Neqb_eq) by congruence. apply seen_other. rewrite Forall_forall in Hz. intros p Hp.
    destruct (Hz p Hp) as (t & ts & -> & E). unfold p_hash. cbn. rewrite E. assumption.
Qed.
End Proofs.
