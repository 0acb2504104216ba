(** * Proofs about the kafka sink. *)
From Verif Require Import Base BaseFacts TelemetryModel AvroModel AvroSpec AvroProofs KafkaModel KafkaSpec.
From Coq Require Import Permutation.
Open Scope list_scope. Open Scope nat_scope.

Lemma sends_app a b : sends (a ++ b) = sends a ++ sends b.
Proof. apply flat_map_app. Qed.
Lemma acks_app a b : acks (a ++ b) = acks a ++ acks b.
Proof. apply flat_map_app. Qed.
Lemma somes_app {A} (a b : list (option A)) : somes (a ++ b) = somes a ++ somes b.
Proof. apply flat_map_app. Qed.
Lemma published_app a b : published (a ++ b) = (published a + published b)%N.
Proof. induction a as [|[| | |] a IH]; cbn; rewrite ?IH; lia. Qed.
Lemma failed_app a b : failed (a ++ b) = (failed a + failed b)%N.
Proof. induction a as [|[| | |] a IH]; cbn; rewrite ?IH; lia. Qed.
Lemma retried_app a b : retried (a ++ b) = (retried a + retried b)%N.
Proof. induction a as [|[| | |] a IH]; cbn; rewrite ?IH; lia. Qed.
Lemma retry_failed_app a b : retry_failed (a ++ b) = (retry_failed a + retry_failed b)%N.
Proof. induction a as [|[| | |] a IH]; cbn; rewrite ?IH; lia. Qed.
Lemma count_app f ans a b : count f ans (a ++ b) = (count f ans a + count f ans b)%N.
Proof. unfold count. rewrite filter_app, app_length. lia. Qed.
Lemma count_cons f ans s r : count f ans (s :: r) = ((if f (ans s) then 1 else 0) + count f ans r)%N.
Proof. unfold count. cbn. destruct (f (ans s)); cbn [List.length]; lia. Qed.

(** the calls of acknowledging a list of ids *)
Lemma ack_calls l : sends (flat_map k_ack l) = [] /\ acks (flat_map k_ack l) = somes l /\ published (flat_map k_ack l) = 0%N /\
  failed (flat_map k_ack l) = 0%N /\ retried (flat_map k_ack l) = 0%N /\ retry_failed (flat_map k_ack l) = 0%N.
Proof.
  induction l as [|[c|] l (I1 & I2 & I3 & I4 & I5 & I6)]; cbn; auto 10.
  repeat split; auto. f_equal. exact I2.
Qed.

Section Proofs.
Variable ans : nat -> kanswer.

(** what is sent again for an attempt *)
Definition again (a : nat * option N) : list krec :=
  match ans (fst a) with
  | KProduction e m =>
      if retryable e then
        match o_payload m, o_key m with
        | Some p, Some key => [mkKrec p key (k_metadata m) (snd a)]
        | _, _ => []
        end
      else []
  | _ => []
  end.
(** attempts of a list of sends, numbered from [n] *)
Fixpoint numbered (n : nat) (l : list krec) : list (nat * option N) :=
  match l with [] => [] | r :: l => (n, k_conn r) :: numbered (S n) l end.
Lemma numbered_app n a b : numbered n (a ++ b) = numbered n a ++ numbered (n + List.length a) b.
Proof.
  revert n. induction a as [|r a IH]; intros n; cbn; [rewrite Nat.add_0_r; reflexivity|].
  rewrite IH. do 3 f_equal. cbn. lia.
Qed.
Lemma numbered_length n a : List.length (numbered n a) = List.length a.
Proof. revert n. induction a; intros n; cbn; auto. Qed.
Lemma numbered_snd n a : map snd (numbered n a) = map k_conn a.
Proof. revert n. induction a; intros n; cbn; f_equal; auto. Qed.
Lemma numbered_fst n a : map fst (numbered n a) = seq n (List.length a).
Proof. revert n. induction a; intros n; cbn; f_equal; auto. Qed.

Lemma await_spec ms : forall p f t ak rt, k_await ans ms = (p, f, t, ak, rt) ->
  p = count is_ok ans (map fst ms) /\ f = count is_fatal ans (map fst ms) /\ t = count is_retry ans (map fst ms) /\
  Permutation (somes (map snd ms)) (somes ak ++ somes (map snd rt)) /\
  (forall n, let '(new, calls, lost) := k_resend n rt in
     sends calls = flat_map again ms /\ new = numbered n (sends calls) /\ acks calls = [] /\
     published calls = 0%N /\ failed calls = 0%N /\ retried calls = 0%N /\ retry_failed calls = count incomplete ans (map fst ms) /\
     Permutation (somes (map snd rt)) (somes lost ++ somes (map snd new)) /\
     retry_failed calls = N.of_nat (List.length lost)).
Proof.
  induction ms as [|[s c] ms IH]; intros p f t ak rt E.
  - cbn in E. injection E as <- <- <- <- <-. cbn. repeat split; auto.
  - cbn [k_await] in E. destruct (k_await ans ms) as [[[[p0 f0] t0] ak0] rt0] eqn:Ea.
    destruct (IH _ _ _ _ _ eq_refl) as (I1 & I2 & I3 & I4 & I5). clear IH.
    cbn [map fst snd]. rewrite !count_cons. change (is_fatal (ans s)) with (negb (is_ok (ans s)) && negb (is_retry (ans s))).
    assert (Hperm : forall x, Permutation (somes (c :: map snd ms)) (somes (c :: ak0) ++ x) <-> Permutation (somes (c :: map snd ms)) (somes [c] ++ somes ak0 ++ x)).
    { intros x. change (c :: ak0) with ([c] ++ ak0). rewrite somes_app, app_assoc. tauto. }
    assert (Hc : somes (c :: map snd ms) = somes [c] ++ somes (map snd ms)) by (change (c :: map snd ms) with ([c] ++ map snd ms); apply somes_app).
    assert (Resolved : forall rest : Prop, rest -> again (s, c) = [] -> incomplete (ans s) = false -> 
       Permutation (somes (c :: map snd ms)) (somes (c :: ak0) ++ somes (map snd rt0)) /\
       (forall n, let '(new, calls, lost) := k_resend n rt0 in
         sends calls = flat_map again ((s, c) :: ms) /\ new = numbered n (sends calls) /\ acks calls = [] /\
         published calls = 0%N /\ failed calls = 0%N /\ retried calls = 0%N /\ retry_failed calls = ((if incomplete (ans s) then 1 else 0) + count incomplete ans (map fst ms))%N /\
         Permutation (somes (map snd rt0)) (somes lost ++ somes (map snd new)) /\ retry_failed calls = N.of_nat (List.length lost))).
    { intros rest _ Hag Hinc. split.
      - apply Hperm. rewrite Hc. apply Permutation_app_head. assumption.
      - intros n. specialize (I5 n). destruct (k_resend n rt0) as [[new calls] lost]. cbn [flat_map]. rewrite Hag, Hinc. exact I5. }
    destruct (ans s) as [|e m|m|] eqn:Es; cbn [is_ok is_retry negb andb].
    + injection E as <- <- <- <- <-. split; [lia|]. split; [exact I2|]. split; [exact I3|].
      apply (Resolved True I); [unfold again; cbn; rewrite Es; reflexivity|reflexivity].
    + destruct (retryable e) eqn:Er; cbn [negb]; injection E as <- <- <- <- <-.
      * split; [exact I1|]. split; [exact I2|]. split; [lia|]. split.
        -- cbn [map snd]. change (c :: map snd rt0) with ([c] ++ map snd rt0). rewrite somes_app, Hc.
           rewrite I4. apply Permutation_app_swap_app.
        -- intros n. cbn [k_resend flat_map]. unfold again at 1. cbn [fst snd]. rewrite Es, Er. cbn [incomplete]. rewrite Er.
           destruct (o_payload m) as [pl|]; [destruct (o_key m) as [key|]|].
           ++ specialize (I5 (S n)). destruct (k_resend (S n) rt0) as [[new calls] lost].
              destruct I5 as (J1 & J2 & J3 & J4 & J5 & J6 & J7 & J8 & J9). cbn [sends acks flat_map published failed retried retry_failed app andb negb map snd].
              fold (sends calls) (acks calls). rewrite <- J1. split; [reflexivity|]. split; [cbn; f_equal; exact J2|].
              split; [exact J3|]. split; [exact J4|]. split; [exact J5|]. split; [exact J6|]. split; [exact J7|]. split; [|exact J9].
              change (c :: map snd rt0) with ([c] ++ map snd rt0). change (c :: map snd new) with ([c] ++ map snd new). rewrite !somes_app, J8.
              apply Permutation_app_swap_app.
           ++ specialize (I5 n). destruct (k_resend n rt0) as [[new calls] lost].
              destruct I5 as (J1 & J2 & J3 & J4 & J5 & J6 & J7 & J8 & J9). cbn [sends acks flat_map published failed retried retry_failed app andb negb map snd List.length].
              fold (sends calls) (acks calls). split; [exact J1|]. split; [exact J2|].
              split; [exact J3|]. split; [exact J4|]. split; [exact J5|]. split; [exact J6|]. split; [lia|]. split; [|lia].
              change (c :: map snd rt0) with ([c] ++ map snd rt0). change (c :: lost) with ([c] ++ lost). rewrite !somes_app, J8, app_assoc. reflexivity.
           ++ specialize (I5 n). destruct (k_resend n rt0) as [[new calls] lost].
              destruct I5 as (J1 & J2 & J3 & J4 & J5 & J6 & J7 & J8 & J9). cbn [sends acks flat_map published failed retried retry_failed app andb negb map snd List.length].
              fold (sends calls) (acks calls). split; [exact J1|]. split; [exact J2|].
              split; [exact J3|]. split; [exact J4|]. split; [exact J5|]. split; [exact J6|]. split; [lia|]. split; [|lia].
              change (c :: map snd rt0) with ([c] ++ map snd rt0). change (c :: lost) with ([c] ++ lost). rewrite !somes_app, J8, app_assoc. reflexivity.
      * split; [exact I1|]. split; [lia|]. split; [exact I3|].
        apply (Resolved True I); [unfold again; cbn; rewrite Es, Er; reflexivity|cbn; rewrite Er; reflexivity].
    + injection E as <- <- <- <- <-. split; [exact I1|]. split; [lia|]. split; [exact I3|].
      apply (Resolved True I); [unfold again; cbn; rewrite Es; reflexivity|reflexivity].
    + injection E as <- <- <- <- <-. split; [exact I1|]. split; [lia|]. split; [exact I3|].
      apply (Resolved True I); [unfold again; cbn; rewrite Es; reflexivity|reflexivity].
Qed.

Lemma loop_spec fuel : forall ms next lost next' calls lost',
  k_loop ans fuel ms next lost = Some (next', calls, lost') ->
  let att := ms ++ numbered next (sends calls) in
  next' = next + List.length (sends calls) /\
  sends calls = flat_map again att /\
  published calls = count is_ok ans (map fst att) /\ failed calls = count is_fatal ans (map fst att) /\
  retried calls = count is_retry ans (map fst att) /\ retry_failed calls = count incomplete ans (map fst att) /\
  Permutation (somes lost ++ somes (map snd ms)) (acks calls ++ somes lost') /\
  (Forall (fun a => fst a < next) ms -> forall j r, nth_error (sends calls) j = Some r ->
     exists a, In a att /\ fst a < next + j /\ In r (again a)).
Proof.
  induction fuel as [|fuel IH]; intros ms next lost next' calls lost' E.
  - destruct ms; [|discriminate]. cbn in E. injection E as <- <- <-. cbn. rewrite app_nil_r.
    repeat split; auto. intros _ j r H. destruct j; discriminate.
  - destruct ms as [|m0 ms0].
    { cbn in E. injection E as <- <- <-. cbn. rewrite app_nil_r. repeat split; auto. intros _ j r H. destruct j; discriminate. }
    set (ms := m0 :: ms0) in *. cbn [k_loop] in E. change (m0 :: ms0) with ms in E.
    destruct (k_await ans ms) as [[[[p f] t] ak] rt] eqn:Ea.
    destruct (await_spec ms _ _ _ _ _ Ea) as (A1 & A2 & A3 & A4 & A5). specialize (A5 next).
    destruct (k_resend next rt) as [[new rcalls] lost1]. destruct A5 as (B1 & B2 & B3 & B4 & B5 & B6 & B7 & B8 & B9).
    replace (match ms with [] => Some (next, [], lost) | _ :: _ => 
        match k_loop ans fuel new (next + List.length new) (lost ++ lost1) with
        | Some (next'0, calls'0, lost''0) => Some (next'0, CCount p f t :: flat_map k_ack ak ++ rcalls ++ calls'0, lost''0)
        | None => None end end) with
       (match k_loop ans fuel new (next + List.length new) (lost ++ lost1) with
        | Some (next'0, calls'0, lost''0) => Some (next'0, CCount p f t :: flat_map k_ack ak ++ rcalls ++ calls'0, lost''0)
        | None => None end) in E by reflexivity.
    destruct (k_loop ans fuel new (next + List.length new) (lost ++ lost1)) as [[[n2 c2] l2]|] eqn:El; [|discriminate].
    injection E as <- <- <-. destruct (IH _ _ _ _ _ _ El) as (I1 & I2 & I3 & I4 & I5 & I6 & I7 & I8). clear IH.
    destruct (ack_calls ak) as (K1 & K2 & K3 & K4 & K5 & K6).
    assert (Ln : List.length new = List.length (sends rcalls)) by (rewrite B2 at 1; apply numbered_length).
    assert (Es : sends (CCount p f t :: flat_map k_ack ak ++ rcalls ++ c2) = sends rcalls ++ sends c2).
    { change (sends (CCount p f t :: flat_map k_ack ak ++ rcalls ++ c2)) with (sends (flat_map k_ack ak ++ rcalls ++ c2)). rewrite !sends_app, K1. reflexivity. }
    rewrite Es. cbv zeta. rewrite numbered_app, <- B2, <- Ln.
    assert (Em : forall g, count g ans (map fst (ms ++ new ++ numbered (next + List.length new) (sends c2))) =
       (count g ans (map fst ms) + count g ans (map fst (new ++ numbered (next + List.length new) (sends c2))))%N)
      by (intros g; rewrite map_app, count_app; reflexivity).
    rewrite !Em.
    split; [rewrite app_length; lia|].
    split; [rewrite flat_map_app, <- B1, <- I2; reflexivity|].
    split; [cbn [published]; rewrite !published_app; lia|].
    split; [cbn [failed]; rewrite !failed_app; lia|].
    split; [cbn [retried]; rewrite !retried_app; lia|].
    split; [cbn [retry_failed]; rewrite !retry_failed_app; lia|].
    split.
    { change (acks (CCount p f t :: flat_map k_ack ak ++ rcalls ++ c2)) with (acks (flat_map k_ack ak ++ rcalls ++ c2)).
      rewrite !acks_app, K2, B3. cbn [app]. rewrite <- app_assoc, <- I7, A4, B8, somes_app.
      rewrite !app_assoc. apply Permutation_app_tail. rewrite <- !app_assoc. rewrite (Permutation_app_comm (somes lost)), <- !app_assoc.
      apply Permutation_app_head. apply Permutation_app_comm. }
    intros Hlt j r Hj. destruct (Nat.ltb_spec j (List.length (sends rcalls))) as [Hl|Hl].
    + rewrite nth_error_app1 in Hj by assumption. apply nth_error_In in Hj. rewrite B1 in Hj. apply in_flat_map in Hj as (a & Ha & Hr).
      exists a. split; [apply in_or_app; left; assumption|]. split; [|assumption]. rewrite Forall_forall in Hlt. specialize (Hlt a Ha). lia.
    + rewrite nth_error_app2 in Hj by assumption. destruct (I8) with (j := j - List.length (sends rcalls)) (r := r) as (a & Ha & Hs & Hr).
      * rewrite B2, Forall_forall. intros a Ha. apply (in_map fst) in Ha. rewrite numbered_fst in Ha. apply in_seq in Ha. rewrite numbered_length. lia.
      * assumption.
      * exists a. split; [apply in_or_app; right; assumption|]. split; [lia|assumption].
Qed.

(** flushes finish when retryable answers stop *)
Lemma loop_finishes B : (forall s, B <= s -> is_retry (ans s) = false) -> forall d ms next lost, B <= next + d ->
  k_loop ans (S (S d)) ms next lost <> None.
Proof.
  intros HB. induction d as [|d IH]; intros ms next lost Hd.
  - cbn [k_loop]. destruct ms as [|m0 ms0]; [discriminate|].
    destruct (k_await ans (m0 :: ms0)) as [[[[p f] t] ak] rt] eqn:Ea. destruct (await_spec _ _ _ _ _ _ Ea) as (_ & _ & _ & _ & A5). specialize (A5 next).
    destruct (k_resend next rt) as [[new rc] l1]. destruct A5 as (_ & B2 & _).
    destruct new as [|n0 new0]; [discriminate|].
    destruct (k_await ans (n0 :: new0)) as [[[[p1 f1] t1] ak1] rt1] eqn:Ea1. destruct (await_spec _ _ _ _ _ _ Ea1) as (_ & _ & _ & _ & A6).
    specialize (A6 (next + List.length (n0 :: new0))). destruct (k_resend (next + List.length (n0 :: new0)) rt1) as [[new1 rc1] l2]. destruct A6 as (C1 & C2 & _).
    assert (Z : flat_map again (n0 :: new0) = []).
    { rewrite B2. clear -HB Hd. assert (G : forall l n, B <= n -> flat_map again (numbered n l) = []).
      { induction l as [|r l IHl]; intros n Hn; [reflexivity|]. cbn [numbered flat_map]. rewrite IHl by lia. unfold again. cbn [fst].
        specialize (HB n Hn). destruct (ans n); try reflexivity. cbn in HB. rewrite HB. reflexivity. }
      apply G. lia. }
    rewrite Z in C1. rewrite C1 in C2. cbn in C2. subst new1. cbn. discriminate.
  - remember (S (S d)) as d2 eqn:Ed. cbn [k_loop]. destruct ms as [|m0 ms0]; [discriminate|].
    destruct (k_await ans (m0 :: ms0)) as [[[[p f] t] ak] rt]. destruct (k_resend next rt) as [[new rc] l1].
    destruct new as [|n0 new0]; [subst d2; cbn; discriminate|].
    specialize (IH (n0 :: new0) (next + List.length (n0 :: new0)) (lost ++ l1) ltac:(cbn; lia)).
    destruct (k_loop ans d2 (n0 :: new0) (next + List.length (n0 :: new0)) (lost ++ l1)) as [[[? ?] ?]|]; [discriminate|contradiction].
Qed.

(** ** histories *)
Variable utf8_ok : bytes -> bool.
Notation run := (k_run ans utf8_ok).
Definition delivered (ops : list kop) : list raw := flat_map (fun o => match o with KDeliver r => [r] | _ => [] end) ops.
Definition rec_of (r : raw) : krec := mkKrec (r_bytes r) (hex (r_order_by r)) (r_metadata r) (r_conn r).

(** the log of sends numbers the attempts; [k_ok] relates state and log *)
Definition k_ok (log : list krec) (k : kafka) : Prop :=
  q_next k = List.length log /\
  Forall (fun a => exists r, nth_error log (fst a) = Some r /\ k_conn r = snd a) (q_messages k).
Definition caused (rs : list raw) (log : list krec) : Prop :=
  forall j r, nth_error log j = Some r ->
    In r (map rec_of rs) \/ exists i r0, i < j /\ nth_error log i = Some r0 /\ In r (again (i, k_conn r0)).

Lemma nth_numbered n l a : In a (numbered n l) -> exists i r, fst a = n + i /\ nth_error l i = Some r /\ snd a = k_conn r.
Proof.
  revert n. induction l as [|r l IH]; intros n H; [destruct H|]. cbn in H. destruct H as [<-|H].
  - exists 0, r. cbn. auto.
  - destruct (IH (S n) H) as (i & r' & H1 & H2 & H3). exists (S i), r'. cbn. split; [lia|]. auto.
Qed.
Lemma run_log ops : forall k k' calls log rs, run ops k = Some (k', calls) -> k_ok log k -> caused rs log ->
  k_ok (log ++ sends calls) k' /\ caused (rs ++ delivered ops) (log ++ sends calls).
Proof.
  induction ops as [|op ops IH]; intros k k' calls log rs E Hok Hc.
  - cbn in E. injection E as <- <-. cbn. rewrite !app_nil_r. auto.
  - cbn [k_run] in E.
    destruct (match op with KDeliver r => k_deliver utf8_ok k r | KFlush n => k_flush ans n k end) as [[k1 c1]|] eqn:E1; [|discriminate].
    destruct (run ops k1) as [[k2 c2]|] eqn:E2; [|discriminate]. injection E as <- <-.
    assert (G : k_ok (log ++ sends c1) k1 /\ caused (rs ++ delivered [op]) (log ++ sends c1)).
    { destruct Hok as [Hn Hm]. destruct op as [r|n].
      - unfold k_deliver in E1. destruct (forallb _ _); [|discriminate]. injection E1 as <- <-. cbn [sends flat_map app delivered]. split.
        + split; cbn [q_next q_messages]; [rewrite app_length; cbn; lia|]. apply Forall_app. split.
          * eapply Forall_impl; [|exact Hm]. cbn. intros a (r0 & H1 & H2). exists r0. split; [|assumption]. rewrite nth_error_app1; [assumption|].
            apply nth_error_Some. congruence.
          * constructor; [|constructor]. cbn. eexists. rewrite Hn, nth_error_app2, Nat.sub_diag by lia. cbn. split; reflexivity.
        + intros j r0 Hj. destruct (Nat.ltb_spec j (List.length log)) as [Hl|Hl].
          * rewrite nth_error_app1 in Hj by assumption. destruct (Hc j r0 Hj) as [H|(i & r1 & H1 & H2 & H3)].
            -- left. rewrite map_app. apply in_or_app; left; assumption.
            -- right. exists i, r1. split; [assumption|]. split; [|assumption]. rewrite nth_error_app1 by lia. assumption.
          * rewrite nth_error_app2 in Hj by assumption. destruct (j - List.length log) as [|x]; [|destruct x; discriminate].
            cbn in Hj. injection Hj as <-. left. rewrite map_app. apply in_or_app; right; left; reflexivity.
      - unfold k_flush in E1. destruct (k_loop ans n (q_messages k) (q_next k) []) as [[[next' calls'] lost']|] eqn:El; [|discriminate]. injection E1 as <- <-.
        destruct (loop_spec _ _ _ _ _ _ _ El) as (L1 & _ & _ & _ & _ & _ & _ & L8). destruct (ack_calls lost') as (K1 & _).
        rewrite sends_app, K1, app_nil_r. split.
        + split; cbn [q_next q_messages]; [rewrite app_length; lia|constructor].
        + assert (Hlt : Forall (fun a => fst a < q_next k) (q_messages k)).
          { eapply Forall_impl; [|exact Hm]. cbn. intros a (r0 & H1 & _). rewrite Hn. apply nth_error_Some. congruence. }
          specialize (L8 Hlt). cbn [delivered flat_map]. rewrite app_nil_r.
          assert (Hatt : forall a, In a (q_messages k ++ numbered (q_next k) (sends calls')) -> exists r0, nth_error (log ++ sends calls') (fst a) = Some r0 /\ k_conn r0 = snd a).
          { intros a Ha. apply in_app_or in Ha as [Ha|Ha].
            - rewrite Forall_forall in Hm. destruct (Hm a Ha) as (r0 & H1 & H2). exists r0. split; [|assumption]. rewrite nth_error_app1; [assumption|]. apply nth_error_Some; congruence.
            - apply nth_numbered in Ha as (i & r0 & H1 & H2 & H3). exists r0. split; [|congruence]. rewrite H1, Hn, nth_error_app2 by lia.
              replace (List.length log + i - List.length log) with i by lia. assumption. }
          intros j r0 Hj. destruct (Nat.ltb_spec j (List.length log)) as [Hl|Hl].
          * pose proof Hj as Hj'. rewrite nth_error_app1 in Hj' by assumption. destruct (Hc j r0 Hj') as [H|(i & r1 & H1 & H2 & H3)]; [left; assumption|].
            right. exists i, r1. split; [assumption|]. split; [|assumption]. rewrite nth_error_app1 by lia. assumption.
          * rewrite nth_error_app2 in Hj by assumption. destruct (L8 _ _ Hj) as (a & Ha & Hs & Hr). destruct (Hatt a Ha) as (r1 & H1 & H2).
            right. exists (fst a), r1. split; [lia|]. split; [assumption|]. rewrite H2. destruct a; assumption. }
    destruct G as [G1 G2]. destruct (IH _ _ _ _ _ E2 G1 G2) as [J1 J2]. rewrite sends_app, app_assoc.
    split; [assumption|]. change (delivered (op :: ops)) with (delivered [op] ++ delivered ops) || idtac.
    replace (rs ++ delivered (op :: ops)) with ((rs ++ delivered [op]) ++ delivered ops); [assumption|].
    rewrite <- app_assoc. f_equal. unfold delivered. rewrite <- flat_map_app. reflexivity.
Qed.

Lemma again_same r0 r i : (match ans i with KProduction _ m | KOther m => gives_back r0 m | _ => True end) -> meta_wf (k_meta r0) ->
  In r (again (i, k_conn r0)) -> same_message r0 r /\ meta_wf (k_meta r) /\ is_retry (ans i) = true.
Proof.
  intros Hh Hw Hin. unfold again in Hin. cbn [fst snd] in Hin. destruct (ans i) as [|e m|m|]; try contradiction.
  destruct Hh as (H1 & H2 & H3). destruct (retryable e) eqn:Er; [|contradiction]. rewrite H1, H2 in Hin. destruct Hin as [<-|[]].
  unfold same_message, same_meta. cbn [k_payload k_key k_conn k_meta is_retry]. unfold k_metadata, meta_wf in *.
  assert (W : NoDup (map fst (meta_of (o_headers m)))) by (rewrite H3; assumption).
  destruct (o_headers m) as [h|]; cbn [meta_of] in *.
  - assert (Ec : fold_left (fun acc kv => ainsert beqb (fst kv) (snd kv) acc) h [] = h) by (apply (collect_distinct h [] W)).
    rewrite Ec, <- H3. auto 10.
  - rewrite <- H3. auto 10.
Qed.

Lemma run_state ops : forall k k' calls, run ops k = Some (k', calls) ->
  q_bytes k' = pending_bytes (q_bytes k) ops /\ q_max k' = q_max k.
Proof.
  induction ops as [|op ops IH]; intros k k' calls E; [cbn in E; injection E as <- <-; auto|].
  cbn [k_run] in E.
  destruct (match op with KDeliver r => k_deliver utf8_ok k r | KFlush n => k_flush ans n k end) as [[k1 c1]|] eqn:E1; [|discriminate].
  destruct (run ops k1) as [[k2 c2]|] eqn:E2; [|discriminate]. injection E as <- <-.
  destruct (IH _ _ _ E2) as [I1 I2]. rewrite I1, I2. destruct op as [r|n]; cbn [pending_bytes].
  - unfold k_deliver in E1. destruct (forallb _ _); [|discriminate]. injection E1 as <- <-. auto.
  - unfold k_flush in E1. destruct (k_loop _ _ _ _ _) as [[[? ?] ?]|]; [|discriminate]. injection E1 as <- <-. auto.
Qed.
End Proofs.
