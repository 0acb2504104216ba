From Verif Require Import Base BaseFacts TelemetryModel FlowModel FlowSpec.

Section Send.
Context `{Q : QLib}.

Lemma settles_retry a v a' : settles a v a' -> settles (SOther :: a) v a'.
Proof.
  intros [k r|k r|k].
  - apply (settles_ok (S k)).
  - apply (settles_full (S k)).
  - apply (settles_end (S k)).
Qed.

Lemma chan_send_spec c ev : exists v, settles (c_answers c) v (c_answers (fst (chan_send c ev))) /\
  c_queue (fst (chan_send c ev)) = c_queue c ++ kept [v] [ev] /\
  snd (chan_send c ev) = N.of_nat (count_occ Bool.bool_dec [v] false).
Proof.
  destruct c as [q a]. unfold chan_send; cbn [c_queue c_answers].
  induction a as [|x a IH]; cbn [chan_send_loop].
  - exists true. split; [apply (settles_end 0)|]. split; reflexivity.
  - destruct x.
    + exists true. split; [apply (settles_ok 0)|]. split; reflexivity.
    + exists false. split; [apply (settles_full 0)|]. cbn. rewrite app_nil_r. split; reflexivity.
    + destruct IH as (v & H1 & H2). exists v. split; [apply settles_retry; exact H1|exact H2].
Qed.

Lemma send_rest_spec ev : forall cs, exists vs,
  Forall3 (fun c c' v => settles (c_answers c) v (c_answers c') /\ c_queue c' = c_queue c ++ kept [v] [ev])
    cs (fst (send_rest cs ev)) vs /\
  snd (send_rest cs ev) = N.of_nat (count_occ Bool.bool_dec vs false).
Proof.
  induction cs as [|c cs (vs & IH1 & IH2)]; cbn [send_rest].
  - exists []. split; [constructor|reflexivity].
  - destruct (chan_send_spec c ev) as (v & H1 & H2 & H3).
    destruct (chan_send c ev) as [c' d]. destruct (send_rest cs ev) as [r' e]. cbn [fst snd] in *.
    exists (v :: vs). split; [constructor; auto|].
    subst. cbn [count_occ]. destruct (Bool.bool_dec v false); cbn; lia.
Qed.

Lemma send_spec cs ev : exists vs,
  Forall3 (fun c c' v => settles (c_answers c) v (c_answers c') /\ c_queue c' = c_queue c ++ kept [v] [ev])
    cs (fst (send cs ev)) vs /\
  snd (send cs ev) = N.of_nat (count_occ Bool.bool_dec vs false).
Proof.
  destruct cs as [|c cs]; cbn [send].
  - exists []. split; [constructor|reflexivity].
  - destruct (chan_send_spec c ev) as (v & H1 & H2 & H3).
    destruct (send_rest_spec ev cs) as (vs & IH1 & IH2).
    destruct (chan_send c ev) as [c' d]. destruct (send_rest cs ev) as [r' e]. cbn [fst snd] in *.
    exists (v :: vs). split; [constructor; auto|].
    subst. cbn [count_occ]. destruct (Bool.bool_dec v false); cbn; lia.
Qed.

Lemma kept_cons v e vs evs : kept (v :: vs) (e :: evs) = kept [v] [e] ++ kept vs evs.
Proof. destruct v; reflexivity. Qed.

Lemma refusals_zip (vs : list bool) (vss : list (list bool)) : List.length vs = List.length vss ->
  refusals (map (fun p => fst p :: snd p) (combine vs vss)) =
  count_occ Bool.bool_dec vs false + refusals vss.
Proof.
  unfold refusals. revert vss. induction vs as [|v vs IH]; intros [|w vss]; cbn; try discriminate; [reflexivity|].
  intros [= H]. rewrite IH by assumption. destruct (Bool.bool_dec v false); lia.
Qed.

Lemma Forall3_len {A B C} (P : A -> B -> C -> Prop) l m n : Forall3 P l m n ->
  List.length l = List.length m /\ List.length m = List.length n.
Proof. induction 1; cbn; lia. Qed.

Lemma send_all_spec evs : forall cs, exists vss,
  Forall3 (fun c c' vs => List.length vs = List.length evs /\
             settles_all (c_answers c) vs (c_answers c') /\ c_queue c' = c_queue c ++ kept vs evs)
    cs (fst (send_all cs evs)) vss /\
  snd (send_all cs evs) = N.of_nat (refusals vss).
Proof.
  induction evs as [|ev evs IH]; intros cs; cbn [send_all].
  - exists (map (fun _ => []) cs). split.
    + induction cs as [|c cs IHc]; cbn; constructor; [|exact IHc].
      split; [reflexivity|]. split; [constructor|]. rewrite app_nil_r; reflexivity.
    + cbn. unfold refusals. induction cs; cbn in *; [reflexivity|assumption].
  - destruct (send_spec cs ev) as (vs & H1 & H2). destruct (send cs ev) as [cs1 d].
    destruct (IH cs1) as (vss & H3 & H4). destruct (send_all cs1 evs) as [cs2 e]. cbn [fst snd] in *.
    exists (map (fun p => fst p :: snd p) (combine vs vss)).
    destruct (Forall3_len _ _ _ _ H1) as [L1 L2]. destruct (Forall3_len _ _ _ _ H3) as [L3 L4].
    split; [|rewrite refusals_zip by lia; lia].
    clear -H1 H3. revert cs2 vss H3. induction H1 as [|c c1 v cs cs1 vs [Ha Hb] H1 IH]; intros cs2 vss H3.
    + inversion H3; subst. constructor.
    + inversion H3 as [|? c2 ws ? cs2' vss' (Hl & Hc & Hd) H3']; subst. cbn [combine map fst snd].
      constructor; [|apply IH; assumption].
      split; [cbn; lia|]. split; [econstructor; eauto|].
      rewrite Hd, Hb, (kept_cons v ev ws evs), app_assoc. reflexivity.
Qed.
End Send.

Section Filter.
Context `{Q : QLib}.

Lemma received_cons o polls : received (o :: polls) = (match o with Some e => [e] | None => [] end) ++ received polls.
Proof. reflexivity. Qed.

Ltac each_event e := destruct e; cbn [is_shutdown upto_shutdown outputs final f_run].

Lemma f_run_sent F n polls : fails_clean F -> forall st shut, shut < Nat.max 1 n ->
  fr_sent (f_run F n polls st [] shut) =
    outputs F st (upto_shutdown (Nat.max 1 n - shut) (received polls)) /\
  fr_buffer (f_run F n polls st [] shut) = [].
Proof.
  intros Hc. induction polls as [|[e|] polls IH]; intros st shut Hs.
  - split; reflexivity.
  - rewrite received_cons. cbn [app].
    assert (Hev : is_shutdown e = false ->
      f_run F n (Some e :: polls) st [] shut =
      (let '(st', pushed, err) := f_process F st e in
       match err with
       | None => let res := f_run F n polls st' [] shut in
           mkFres (pushed ++ fr_sent res) (fr_stopped res) (fr_rest res) (fr_state res) (fr_buffer res)
       | Some fe => let res := f_run F n polls st' pushed shut in
           mkFres (fe :: fr_sent res) (fr_stopped res) (fr_rest res) (fr_state res) (fr_buffer res)
       end) /\
      outputs F st (upto_shutdown (Nat.max 1 n - shut) (e :: received polls)) =
      (let '(st', pushed, err) := f_process F st e in
              match err with
              | None => pushed
              | Some fe => [fe]
              end ++ outputs F st' (upto_shutdown (Nat.max 1 n - shut) (received polls)))).
    { destruct e; intros E; try discriminate E; split; reflexivity. }
    destruct (is_shutdown e) eqn:E.
    + destruct e; try discriminate E. cbn [f_run upto_shutdown].
      destruct (Nat.leb_spec n (shut + 1)).
      * assert (Nat.max 1 n - shut = 1) as -> by lia. split; reflexivity.
      * cbn [fr_sent fr_buffer].
        destruct (Nat.max 1 n - shut) as [|[|k]] eqn:Ek; try lia.
        destruct (IH st (shut + 1)) as [H1 H2]; [lia|]. rewrite H1, H2.
        replace (Nat.max 1 n - (shut + 1)) with (S k) by lia. split; reflexivity.
    + destruct (Hev eq_refl) as [-> ->]. clear Hev. pose proof (Hc st e) as Hce.
      destruct (f_process F st e) as [[st' pushed] [fe|]]; cbn [snd fst] in *.
      * rewrite (Hce fe eq_refl). destruct (IH st' shut Hs) as [H1 H2]. cbn [fr_sent fr_buffer]. rewrite H1, H2.
        split; reflexivity.
      * destruct (IH st' shut Hs) as [H1 H2]. cbn [fr_sent fr_buffer]. rewrite H1, H2. split; reflexivity.
  - cbn [f_run]. rewrite received_cons. cbn [app]. apply IH; assumption.
Qed.

Lemma f_run_stop F n polls : forall st buf shut, shut < Nat.max 1 n ->
  let r := f_run F n polls st buf shut in
  let k := Nat.max 1 n - shut in
  fr_stopped r = (k <=? shutdowns (received polls)) /\
  received polls = upto_shutdown k (received polls) ++ received (fr_rest r) /\
  fr_state r = final F st (upto_shutdown k (received polls)) /\
  (fr_stopped r = true -> shutdowns (upto_shutdown k (received polls)) = k) /\
  (fr_stopped r = false -> fr_rest r = []).
Proof.
  induction polls as [|[e|] polls IH]; intros st buf shut Hs; cbv zeta.
  - destruct (Nat.max 1 n - shut) eqn:E; [lia|]. cbn. split; [reflexivity|]. split; [reflexivity|]. split; [reflexivity|]. split; [discriminate|reflexivity].
  - rewrite received_cons. cbn [app].
    destruct (is_shutdown e) eqn:E.
    + destruct e; try discriminate E. cbn [f_run upto_shutdown].
      unfold shutdowns; cbn [filter is_shutdown List.length]. fold (shutdowns (received polls)).
      destruct (Nat.leb_spec n (shut + 1)).
      * assert (Nat.max 1 n - shut = 1) as -> by lia. cbn. repeat split. discriminate.
      * cbn [fr_sent fr_buffer fr_stopped fr_rest fr_state].
        destruct (Nat.max 1 n - shut) as [|[|k]] eqn:Ek; try lia.
        destruct (IH st buf (shut + 1)) as (H1 & H2 & H3 & H4 & H5); [lia|]. cbv zeta in *.
        replace (Nat.max 1 n - (shut + 1)) with (S k) in * by lia.
        rewrite H1, H3. split; [reflexivity|]. split; [cbn; f_equal; exact H2|]. split; [reflexivity|].
        split; [|rewrite <- H1; exact H5].
        intros Ht. rewrite <- H1 in Ht. unfold shutdowns in *; cbn. rewrite H4 by assumption. reflexivity.
    + assert (Hsd : forall l, shutdowns (e :: l) = shutdowns l) by (intros l; unfold shutdowns; cbn; rewrite E; reflexivity).
      assert (Hup : forall k, upto_shutdown k (e :: received polls) = e :: upto_shutdown k (received polls))
        by (intros k; destruct e; try discriminate E; reflexivity).
      assert (Hfi : forall l, final F st (e :: l) = final F (fst (fst (f_process F st e))) l)
        by (intros l; destruct e; try discriminate E; reflexivity).
      assert (Hev : exists buf1, let r := f_run F n (Some e :: polls) st buf shut in
         let r1 := f_run F n polls (fst (fst (f_process F st e))) buf1 shut in
         fr_stopped r = fr_stopped r1 /\ fr_rest r = fr_rest r1 /\ fr_state r = fr_state r1).
      { destruct e; try discriminate E; cbn [f_run]; destruct (f_process F st _) as [[st' pushed] [fe|]];
          cbn [fst snd]; eexists; cbn; repeat split. }
      destruct Hev as (buf1 & E1 & E2 & E3). rewrite E1, E2, E3, Hup, Hfi, !Hsd.
      destruct (IH (fst (fst (f_process F st e))) buf1 shut Hs) as (H1 & H2 & H3 & H4 & H5). cbv zeta in *.
      split; [assumption|]. split; [cbn; f_equal; assumption|]. auto.
  - rewrite received_cons. cbn [app f_run]. apply IH; assumption.
Qed.

(** ** Shutdown markers *)
Lemma shutdowns_app a b : shutdowns (a ++ b) = shutdowns a + shutdowns b.
Proof. unfold shutdowns. rewrite filter_app, app_length. reflexivity. Qed.

Lemma interleaves_shutdowns ss l : interleaves ss l ->
  shutdowns l = fold_right Nat.add 0 (map shutdowns ss).
Proof.
  induction 1 as [ss Hs|ss1 e s ss2 l H IH].
  - induction Hs as [|s ss Hs1 Hs2 IH]; subst; cbn in *; [reflexivity|exact IH].
  - change (shutdowns (e :: l)) with (shutdowns ([e] ++ l)). rewrite shutdowns_app, IH.
    rewrite !map_app, !fold_right_app. cbn [map fold_right].
    change (e :: s) with ([e] ++ s). rewrite shutdowns_app.
    generalize (shutdowns [e]) (shutdowns s) (fold_right Nat.add 0 (map shutdowns ss2)). intros a b c.
    assert (G : forall l x y, fold_right Nat.add (x + y) l = x + fold_right Nat.add y l).
    { clear. induction l; intros; cbn; [lia|]. rewrite IHl; lia. }
    replace (a + b + c) with (a + (b + c)) by lia. rewrite (G _ a (b + c)). reflexivity.
Qed.

Definition spent (s : list event) : Prop := s = [] \/ announces_once s.

Lemma announces_tail e s : announces_once (e :: s) -> (e = EShutdown /\ s = []) \/ (is_shutdown e = false /\ announces_once s).
Proof.
  intros (evs & E & H). destruct evs as [|x evs].
  - cbn in E. inversion E; subst. auto.
  - cbn in E. inversion E; subst. right.
    unfold shutdowns in H; cbn in H. destruct (is_shutdown x); [discriminate H|].
    split; [reflexivity|]. exists evs; auto.
Qed.
Lemma announces_shutdowns s : announces_once s -> shutdowns s = 1.
Proof. intros (evs & -> & H). rewrite shutdowns_app, H. reflexivity. Qed.

(** when every unspent stream ends with its marker, the last marker is the last
    event *)
Lemma interleaves_last ss l : interleaves ss l -> Forall spent ss -> forall k,
  k = shutdowns l -> upto_shutdown k l = l.
Proof.
  induction 1 as [ss Hs|ss1 e s ss2 l H IH]; intros HF k ->.
  - reflexivity.
  - rewrite Forall_app in HF. destruct HF as [HF1 HF2]. inversion HF2 as [|? ? Hes HF3]; subst.
    destruct Hes as [Hes|Hes]; [discriminate|].
    destruct (announces_tail _ _ Hes) as [[-> ->]|[E Hs]].
    + assert (HF' : Forall spent (ss1 ++ [] :: ss2)).
      { apply Forall_app; split; [assumption|]. constructor; [left; reflexivity|assumption]. }
      specialize (IH HF' _ eq_refl). cbn [upto_shutdown].
      change (shutdowns (EShutdown :: l)) with (S (shutdowns l)).
      destruct (shutdowns l) as [|k] eqn:Ek.
      * (* every remaining stream is empty *)
        assert (l = []) as ->; [|reflexivity].
        rewrite (interleaves_shutdowns _ _ H) in Ek.
        assert (Hall : forall t, In t (ss1 ++ [] :: ss2) -> t = []).
        { intros t Ht. rewrite Forall_forall in HF'. destruct (HF' t Ht) as [|Ha]; [assumption|].
          apply announces_shutdowns in Ha. exfalso. clear -Ht Ha Ek.
          induction (ss1 ++ [] :: ss2) as [|u us IHu]; cbn in *; [contradiction|].
          destruct Ht as [->|Ht]; [lia|]. apply IHu; [lia|assumption]. }
        clear -H Hall. destruct H as [|a1 x s a2 l' _]; [reflexivity|].
        assert (Hx : x :: s = []) by (apply Hall; rewrite in_app_iff; cbn; auto).
        discriminate Hx.
      * f_equal. exact IH.
    + assert (HF' : Forall spent (ss1 ++ s :: ss2)).
      { apply Forall_app; split; [assumption|]. constructor; [right; assumption|assumption]. }
      specialize (IH HF' _ eq_refl).
      assert (shutdowns (e :: l) = shutdowns l) as -> by (unfold shutdowns; cbn; rewrite E; reflexivity).
      destruct e; try discriminate E; cbn; f_equal; exact IH.
Qed.

Lemma upto_prefix k l : exists l', l = upto_shutdown k l ++ l'.
Proof.
  revert k; induction l as [|e l IH]; intros k; [exists []; reflexivity|].
  destruct e; cbn; try (destruct (IH k) as (l' & E); exists l'; rewrite <- E; reflexivity).
  destruct k as [|[|k]]; try (exists l; reflexivity). destruct (IH (S k)) as (l' & E); exists l'. cbn; rewrite <- E; reflexivity.
Qed.

Lemma markers_forwarded F n polls : forall st buf shut, shut < Nat.max 1 n ->
  (forall st e, is_shutdown e = false -> shutdowns (snd (fst (f_process F st e))) = 0) ->
  (forall st e fe, is_shutdown e = false -> snd (f_process F st e) = Some fe -> is_shutdown fe = false) ->
  shutdowns buf = 0 ->
  shutdowns (fr_sent (f_run F n polls st buf shut)) = Nat.min (shutdowns (received polls)) (Nat.max 1 n - shut).
Proof.
  intros st buf shut Hs Hp He. revert st buf shut Hs.
  induction polls as [|[e|] polls IH]; intros st buf shut Hs Hb.
  - reflexivity.
  - rewrite received_cons. cbn [app].
    destruct (is_shutdown e) eqn:E.
    + destruct e; try discriminate E. cbn [f_run].
      change (shutdowns (EShutdown :: received polls)) with (S (shutdowns (received polls))).
      destruct (Nat.leb_spec n (shut + 1)); cbn [fr_sent].
      * assert (Nat.max 1 n - shut = 1) as -> by lia. cbn. lia.
      * change (EShutdown :: ?l) with ([EShutdown] ++ l). rewrite shutdowns_app, IH by (auto; lia). change (shutdowns [EShutdown]) with 1. lia.
    + assert (shutdowns (e :: received polls) = shutdowns (received polls)) as -> by (unfold shutdowns; cbn; rewrite E; reflexivity).
      specialize (Hp st e E). assert (He' := fun fe => He st e fe E).
      destruct e; try discriminate E; cbn [f_run];
        (destruct (f_process F st _) as [[st' pushed] [fe|]]; cbn [fst snd fr_sent] in *;
         [ change (fe :: ?l) with ([fe] ++ l); rewrite shutdowns_app, IH by (auto; rewrite shutdowns_app; lia);
           unfold shutdowns at 1; cbn; rewrite (He' fe eq_refl); reflexivity
         | rewrite !shutdowns_app, IH by auto; lia ]).
  - rewrite received_cons. cbn [app f_run]. apply IH; assumption.
Qed.
End Filter.

Section Sink.
Context `{Q : QLib}.
Variable n : nat.
Variable fi : option N.

Lemma delivered_app a b : delivered (a ++ b) = delivered a ++ delivered b.
Proof. apply flat_map_app. Qed.
Lemma tf_app a b : timer_flushes (a ++ b) = timer_flushes a ++ timer_flushes b.
Proof. apply flat_map_app. Qed.
Lemma flush_indices_app a b : flush_indices (a ++ b) = flush_indices a ++ flush_indices b.
Proof. apply flat_map_app. Qed.

Definition move_arrival (m : sink_move) : list event := match m with Arrive e => [e] | _ => [] end.

(** effect of a turn of the inner loop *)
Lemma inner_cases s e o : exists cs hand last shut stop,
  sink_inner n fi s e o = mkSinkRun (sr_queue s) hand last shut stop (sr_calls s ++ cs) /\
  ((o = true /\ is_data e = true /\ cs = [CDeliver e] /\ hand = None /\ stop = false /\ last = sr_last s) \/
   (exists idx, o = true /\ e = ETimerFlush idx /\ hand = None /\ stop = false /\
      ((sr_last s < idx)%N /\ last = idx /\
        cs = (match fi with
              | Some k => if orb (k =? 0)%N (idx mod k =? 0)%N then [CFlushTimer idx] else []
              | None => [] end)
       \/ ((idx <= sr_last s)%N /\ last = sr_last s /\ cs = []))) \/
   (o = true /\ e = EShutdown /\ hand = None /\ stop = true /\ cs = [CShutdown] /\ last = sr_last s /\
      n <= sr_shut s + 1) \/
   (o = true /\ e = EShutdown /\ hand = Some e /\ stop = false /\ cs = [] /\ last = sr_last s /\
      shut = sr_shut s + 1 /\ sr_shut s + 1 < n) \/
   (o = false /\ hand = Some e /\ stop = false /\ cs = [CFlushValve] /\ last = sr_last s)).
Proof.
  unfold sink_inner. destruct o.
  - destruct e.
    + do 5 eexists. split; [reflexivity|]. left. repeat split.
    + do 5 eexists. split; [reflexivity|]. left. repeat split.
    + destruct (N.ltb_spec (sr_last s) idx).
      * do 5 eexists. split; [reflexivity|]. right; left. exists idx. repeat split. left. repeat split; assumption.
      * exists [], None, (sr_last s), (sr_shut s), false. rewrite app_nil_r. split; [reflexivity|].
        right; left. exists idx. repeat split. right. repeat split; assumption.
    + destruct (Nat.leb_spec n (sr_shut s + 1)).
      * do 5 eexists. split; [reflexivity|]. right; right; left. repeat split. assumption.
      * exists [], (Some EShutdown), (sr_last s), (sr_shut s + 1), false. rewrite app_nil_r. split; [reflexivity|].
        do 3 right; left. repeat split. assumption.
    + do 5 eexists. split; [reflexivity|]. left. repeat split.
  - do 5 eexists. split; [reflexivity|]. do 4 right. repeat split.
Qed.

Lemma sink_step_delivers s m :
  delivered (sr_calls (sink_step n fi s m)) ++ filter is_data (in_hand (sink_step n fi s m) ++ sr_queue (sink_step n fi s m)) =
  delivered (sr_calls s) ++ filter is_data (in_hand s ++ sr_queue s) ++ filter is_data (move_arrival m).
Proof.
  unfold sink_step, in_hand. destruct m as [e| |o]; cbn [move_arrival filter].
  - cbn [sr_hand sr_calls sr_queue]. rewrite !filter_app. rewrite !app_assoc. reflexivity.
  - rewrite app_nil_r. destruct (sr_stopped s); [reflexivity|].
    destruct (sr_hand s) as [e|] eqn:Eh; [rewrite Eh; reflexivity|].
    destruct (sr_queue s) as [|e q] eqn:Eq; [rewrite Eh, Eq; reflexivity|]. reflexivity.
  - rewrite app_nil_r. destruct (sr_stopped s); [reflexivity|].
    destruct (sr_hand s) as [e|] eqn:Eh; [|rewrite Eh; reflexivity].
    destruct (inner_cases s e o) as (cs & hand & last & shut & stop & -> & Hc).
    cbn [sr_hand sr_calls sr_queue]. rewrite delivered_app, <- app_assoc. f_equal.
    destruct Hc as [(-> & Hd & -> & -> & _)|[(idx & -> & -> & -> & _ & [(_ & _ & ->)|(_ & _ & ->)])|
      [(-> & -> & -> & _ & -> & _)|[(-> & -> & -> & _ & -> & _)|(-> & -> & _ & -> & _)]]]]; try reflexivity.
    + cbn. rewrite Hd. reflexivity.
    + destruct fi as [k|]; [destruct (orb _ _)|]; reflexivity.
Qed.

Lemma arrivals_cons m ms : arrivals (m :: ms) = move_arrival m ++ arrivals ms.
Proof. reflexivity. Qed.

Lemma sink_delivers ms : forall s,
  delivered (sr_calls (sink_exec n fi ms s)) ++
    filter is_data (in_hand (sink_exec n fi ms s) ++ sr_queue (sink_exec n fi ms s)) =
  delivered (sr_calls s) ++ filter is_data (in_hand s ++ sr_queue s) ++ filter is_data (arrivals ms).
Proof.
  induction ms as [|m ms IH]; intros s.
  - cbn. rewrite app_nil_r. reflexivity.
  - cbn [sink_exec fold_left]. fold (sink_exec n fi ms (sink_step n fi s m)). rewrite IH, arrivals_cons.
    pose proof (sink_step_delivers s m) as Hs. rewrite app_assoc, Hs. rewrite !filter_app, !app_assoc. reflexivity.
Qed.

Lemma due_app a b : forall earlier,
  due fi earlier (a ++ b) = due fi earlier a ++ due fi (rev a ++ earlier) b.
Proof.
  induction a as [|i a IH]; intros earlier; [reflexivity|].
  cbn [app due rev]. rewrite IH, <- app_assoc, <- app_assoc. reflexivity.
Qed.

(** [seen]: flush indices whose turn of the inner loop is complete *)
Definition seen_inv (s : sink_run) (seen : list N) : Prop :=
  (forall j, In j seen -> (j <= sr_last s)%N) /\
  (sr_last s = 0%N \/ In (sr_last s) seen) /\
  timer_flushes (sr_calls s) = due fi [] seen.

Lemma sink_step_seen s m seen : seen_inv s seen ->
  exists seen', seen_inv (sink_step n fi s m) seen' /\
    seen' ++ flush_indices (in_hand (sink_step n fi s m) ++ sr_queue (sink_step n fi s m)) =
    seen ++ flush_indices (in_hand s ++ sr_queue s) ++ flush_indices (move_arrival m).
Proof.
  intros (I1 & I2 & I3). unfold sink_step, in_hand. destruct m as [e| |o]; cbn [move_arrival].
  - exists seen. cbn [sr_hand sr_calls sr_queue]. split; [split; [|split]; assumption|].
    rewrite !flush_indices_app, !app_assoc. reflexivity.
  - exists seen. rewrite app_nil_r. destruct (sr_stopped s); [split; [split; [|split]; assumption|reflexivity]|].
    destruct (sr_hand s) as [e|] eqn:Eh; [rewrite Eh; split; [split; [|split]; assumption|reflexivity]|].
    destruct (sr_queue s) as [|e q] eqn:Eq; [rewrite Eh, Eq|]; (split; [split; [|split]; assumption|reflexivity]).
  - rewrite app_nil_r. destruct (sr_stopped s); [exists seen; split; [split; [|split]; assumption|reflexivity]|].
    destruct (sr_hand s) as [e|] eqn:Eh; [|rewrite Eh; exists seen; split; [split; [|split]; assumption|reflexivity]].
    destruct (inner_cases s e o) as (cs & hand & last & shut & stop & -> & Hc).
    cbn [sr_hand sr_calls sr_queue sr_last].
    assert (Hplain : timer_flushes cs = [] -> last = sr_last s ->
              seen_inv (mkSinkRun (sr_queue s) hand last shut stop (sr_calls s ++ cs)) seen).
    { intros Hcs ->. split; [|split]; cbn [sr_last sr_calls]; auto. rewrite tf_app, Hcs, app_nil_r. assumption. }
    destruct Hc as [(-> & Hd & -> & -> & _ & Hl)|[(idx & -> & -> & -> & _ & Hc)|
      [(-> & -> & -> & _ & -> & Hl & _)|[(-> & -> & -> & _ & -> & Hl & _)|(-> & -> & _ & -> & Hl)]]]].
    + exists seen. split; [apply Hplain; auto|]. destruct e; try discriminate Hd; reflexivity.
    + exists (seen ++ [idx]). split; [|rewrite <- app_assoc; reflexivity].
      assert (Hdue : due fi [] (seen ++ [idx]) = due fi [] seen ++
          (match fi with None => [] | Some k => if andb (sr_last s <? idx)%N (orb (k =? 0)%N (idx mod k =? 0)%N) then [idx] else [] end)).
      { rewrite due_app. f_equal. cbn [due]. rewrite !app_nil_r.
        assert (Hf : forallb (fun j => (j <? idx)%N) (0%N :: rev seen) = (sr_last s <? idx)%N).
        { apply eq_iff_eq_true. rewrite forallb_forall, N.ltb_lt. split.
          - intros Hall. destruct I2 as [->|I2]; apply N.ltb_lt, Hall; [left; reflexivity|right; apply in_rev in I2; assumption].
          - intros Hlt j [<-|Hj]; apply N.ltb_lt; [lia|]. apply in_rev in Hj. specialize (I1 j Hj). lia. }
        rewrite Hf. reflexivity. }
      destruct Hc as [(Hlt & -> & ->)|(Hle & -> & ->)].
      * split; [|split]; cbn [sr_last sr_calls].
        -- intros j Hj. rewrite in_app_iff in Hj. destruct Hj as [Hj|[<-|[]]]; [|lia]. specialize (I1 j Hj); lia.
        -- right. rewrite in_app_iff; cbn; auto.
        -- rewrite tf_app, Hdue, I3. f_equal. apply N.ltb_lt in Hlt. rewrite Hlt. destruct fi as [k|]; [|reflexivity]. cbn [andb].
           destruct (orb _ _); reflexivity.
      * split; [|split]; cbn [sr_last sr_calls].
        -- intros j Hj. rewrite in_app_iff in Hj. destruct Hj as [Hj|[<-|[]]]; [|lia]. apply I1; assumption.
        -- destruct I2; [auto|right; rewrite in_app_iff; auto].
        -- rewrite Hdue, app_nil_r, I3. apply N.ltb_ge in Hle. rewrite Hle. destruct fi; cbn [andb]; rewrite app_nil_r; reflexivity.
    + exists seen. split; [apply Hplain; auto|reflexivity].
    + exists seen. split; [apply Hplain; auto|reflexivity].
    + exists seen. split; [apply Hplain; auto|reflexivity].
Qed.

Lemma sink_seen ms : forall s seen, seen_inv s seen ->
  exists seen', seen_inv (sink_exec n fi ms s) seen' /\
    seen' ++ flush_indices (in_hand (sink_exec n fi ms s) ++ sr_queue (sink_exec n fi ms s)) =
    seen ++ flush_indices (in_hand s ++ sr_queue s) ++ flush_indices (arrivals ms).
Proof.
  induction ms as [|m ms IH]; intros s seen HI.
  - exists seen. cbn. rewrite app_nil_r. auto.
  - cbn [sink_exec fold_left]. fold (sink_exec n fi ms (sink_step n fi s m)).
    destruct (sink_step_seen s m seen HI) as (seen1 & HI1 & E1).
    destruct (IH _ _ HI1) as (seen2 & HI2 & E2). exists seen2. split; [assumption|].
    rewrite E2, app_assoc, E1, arrivals_cons, !flush_indices_app, !app_assoc. reflexivity.
Qed.

Lemma sink_seen_start : seen_inv sink_start [].
Proof. split; [intros j []|split; [left; reflexivity|reflexivity]]. Qed.

Lemma sink_valve_closed k : forall s e, sr_stopped s = false -> sr_hand s = Some e ->
  let s' := sink_exec n fi (repeat (ValveSays false) k) s in
  sr_calls s' = sr_calls s ++ repeat CFlushValve k /\ sr_hand s' = Some e /\ sr_queue s' = sr_queue s /\
  sr_stopped s' = false /\ sr_shut s' = sr_shut s /\ sr_last s' = sr_last s.
Proof.
  induction k as [|k IH]; intros s e H1 H2; cbv zeta.
  - cbn. rewrite app_nil_r. auto 10.
  - cbn [repeat sink_exec fold_left]. fold (sink_exec n fi (repeat (ValveSays false) k) (sink_step n fi s (ValveSays false))).
    assert (E : sink_step n fi s (ValveSays false) =
      mkSinkRun (sr_queue s) (Some e) (sr_last s) (sr_shut s) false (sr_calls s ++ [CFlushValve])).
    { unfold sink_step. rewrite H1, H2. reflexivity. }
    rewrite E. destruct (IH (mkSinkRun (sr_queue s) (Some e) (sr_last s) (sr_shut s) false (sr_calls s ++ [CFlushValve])) e eq_refl eq_refl)
      as (A & B & C & D & F & G). cbv zeta in *. rewrite A, B, C, D, F, G. cbn [sr_calls]. rewrite <- app_assoc. auto 10.
Qed.

(** shutdown: the calls end with CShutdown exactly when stopped *)
Definition handled_shutdown (s : sink_run) : Prop :=
  (sr_stopped s = true -> sr_hand s = None /\ exists cs, sr_calls s = cs ++ [CShutdown] /\ ~ In CShutdown cs) /\
  (sr_stopped s = false -> ~ In CShutdown (sr_calls s)).

Lemma sink_step_handled s m : handled_shutdown s -> handled_shutdown (sink_step n fi s m).
Proof.
  intros [H1 H2]. unfold sink_step. destruct m as [e| |o].
  - split; cbn; auto.
  - destruct (sr_stopped s) eqn:E; [split; auto|]; try congruence.
    destruct (sr_hand s) eqn:Eh; [split; auto; congruence|].
    destruct (sr_queue s); split; cbn; auto; congruence.
  - destruct (sr_stopped s) eqn:E; [split; auto; congruence|].
    destruct (sr_hand s) as [e|] eqn:Eh; [|split; auto; congruence].
    specialize (H2 eq_refl).
    destruct (inner_cases s e o) as (cs & hand & last & shut & stop & -> & Hc). unfold handled_shutdown. cbn [sr_stopped sr_hand sr_calls].
    destruct Hc as [(-> & Hd & -> & -> & -> & Hl)|[(idx & -> & -> & -> & -> & Hc)|
      [(-> & -> & -> & -> & -> & Hl & _)|[(-> & -> & -> & -> & -> & Hl & _)|(-> & -> & -> & -> & Hl)]]]];
      (split; [try discriminate|try discriminate]).
    + intros _ Hin. rewrite in_app_iff in Hin. destruct Hin as [Hin|[Hin|[]]]; [auto|discriminate Hin].
    + intros _ Hin. rewrite in_app_iff in Hin. destruct Hin as [Hin|Hin]; [auto|].
      destruct Hc as [(_ & _ & ->)|(_ & _ & ->)]; [|destruct Hin].
      destruct fi as [k|]; [destruct (orb _ _)|]; cbn in Hin; intuition discriminate.
    + intros _. split; [reflexivity|]. exists (sr_calls s); auto.
    + intros _. rewrite app_nil_r. assumption.
    + intros _ Hin. rewrite in_app_iff in Hin. destruct Hin as [Hin|[Hin|[]]]; [auto|discriminate Hin].
Qed.
Lemma sink_handled ms : forall s, handled_shutdown s -> handled_shutdown (sink_exec n fi ms s).
Proof.
  induction ms as [|m ms IH]; intros s H; [assumption|]. cbn. apply IH, sink_step_handled; assumption.
Qed.

(** the sink stops at the first marker *)
Definition shut_inv (s : sink_run) (arrived : list event) : Prop :=
  exists done, arrived = done ++ (if sr_stopped s then [EShutdown] else in_hand s) ++ sr_queue s /\
    shutdowns done = 0 /\ delivered (sr_calls s) = filter is_data done.

Lemma sink_step_shut s m arrived : shut_inv s arrived -> shut_inv (sink_step n fi s m) (arrived ++ move_arrival m).
Proof.
  intros (done & E & Hd & Hc). unfold sink_step. destruct m as [e| |o]; cbn [move_arrival].
  - exists done. unfold in_hand in *. cbn [sr_hand sr_stopped sr_calls sr_queue]. rewrite E, <- !app_assoc. auto.
  - rewrite app_nil_r. destruct (sr_stopped s) eqn:Es; [exists done; rewrite Es; auto|].
    destruct (sr_hand s) as [e|] eqn:Eh; [exists done; rewrite Es; auto|].
    destruct (sr_queue s) as [|e q] eqn:Eq; [exists done; rewrite Es, Eq; auto|].
    exists done. unfold in_hand in *. cbn [sr_hand sr_stopped sr_calls sr_queue]. rewrite Eh in E. auto.
  - rewrite app_nil_r. destruct (sr_stopped s) eqn:Es; [exists done; rewrite Es; auto|].
    destruct (sr_hand s) as [e|] eqn:Eh; [|exists done; rewrite Es; auto].
    destruct (inner_cases s e o) as (cs & hand & last & shut & stop & -> & Hcase).
    unfold in_hand in E. rewrite Eh in E. unfold shut_inv, in_hand. cbn [sr_hand sr_stopped sr_calls sr_queue].
    destruct Hcase as [(-> & Hde & -> & -> & -> & Hl)|[(idx & -> & -> & -> & -> & Hcase)|
      [(-> & -> & -> & -> & -> & Hl & _)|[(-> & -> & -> & -> & -> & Hl & _)|(-> & -> & -> & -> & Hl)]]]].
    + exists (done ++ [e]). rewrite E, <- app_assoc. split; [reflexivity|].
      rewrite shutdowns_app, filter_app, delivered_app, Hd, Hc. cbn. rewrite Hde.
      split; [|reflexivity]. destruct e; try discriminate Hde; reflexivity.
    + exists (done ++ [ETimerFlush idx]). rewrite E, <- app_assoc. split; [reflexivity|].
      rewrite shutdowns_app, filter_app, delivered_app, Hd, Hc. split; [reflexivity|]. f_equal.
      destruct Hcase as [(_ & _ & ->)|(_ & _ & ->)]; [|reflexivity].
      destruct fi as [k|]; [destruct (orb _ _)|]; reflexivity.
    + exists done. rewrite delivered_app, Hc. cbn. rewrite app_nil_r. auto.
    + exists done. rewrite app_nil_r. auto.
    + exists done. rewrite delivered_app, Hc. cbn. rewrite app_nil_r. auto.
Qed.
Lemma sink_shut ms : forall s arrived, shut_inv s arrived -> shut_inv (sink_exec n fi ms s) (arrived ++ arrivals ms).
Proof.
  induction ms as [|m ms IH]; intros s arrived H; [cbn; rewrite app_nil_r; assumption|].
  rewrite arrivals_cons, app_assoc. cbn. apply IH, sink_step_shut; assumption.
Qed.
End Sink.
