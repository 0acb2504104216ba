(** * Proofs about the avro source in front of the kafka sink. *)
From Verif Require Import Base BaseFacts TelemetryModel AvroModel AvroProofs KafkaModel KafkaSpec KafkaProofs PublishModel PublishSpec.
From Coq Require Import Permutation Lia.
Open Scope list_scope. Open Scope nat_scope.

Lemma split_app {A} (l1 l2 a b : list A) x : l1 ++ l2 = a ++ x :: b ->
  (exists b', l1 = a ++ x :: b' /\ b = b' ++ l2) \/ (exists a', a = l1 ++ a' /\ l2 = a' ++ x :: b).
Proof.
  revert a. induction l1 as [|y l1 IH]; intros a E; [right; exists a; auto|].
  destruct a as [|z a]; cbn in E; injection E as -> E.
  - left. exists l1. auto.
  - destruct (IH a E) as [(b' & -> & ->)|(a' & -> & ->)]; [left; exists b'; auto|right; exists a'; auto].
Qed.
Lemma in_acks c calls : In c (acks calls) <-> In (CAck c) calls.
Proof.
  unfold acks. rewrite in_flat_map. split.
  - intros (k & H & Hc). destruct k; cbn in Hc; try contradiction. destruct Hc as [<-|[]]. exact H.
  - intros H. exists (CAck c). split; [exact H|left; reflexivity].
Qed.
Lemma same_trans a b c : same_message a b -> same_message b c -> same_message a c.
Proof.
  intros (A1 & A2 & A3 & A4) (B1 & B2 & B3 & B4). unfold same_message, same_meta in *.
  split; [congruence|]. split; [congruence|]. split; [congruence|]. intros k. rewrite A4. apply B4.
Qed.
Lemma same_refl a : same_message a a.
Proof. unfold same_message, same_meta. auto. Qed.
Lemma nth_app_l {A} (l l' : list A) n x : nth_error l n = Some x -> nth_error (l ++ l') n = Some x.
Proof. intros H. rewrite nth_error_app1; [exact H|]. apply nth_error_Some. congruence. Qed.
Lemma honest_prefix ans l l' : honest_client ans (l ++ l') -> honest_client ans l.
Proof. intros H s r Hn. apply H. apply nth_app_l. exact Hn. Qed.

Section Flush.
Variable ans : nat -> kanswer.
(** the attempts of a list of messages are in the log *)
Definition logged (log : list krec) (ms : list (nat * option N)) : Prop :=
  Forall (fun a => exists r, nth_error log (fst a) = Some r /\ k_conn r = snd a) ms.
Definition all_wf (log : list krec) : Prop := Forall (fun r => meta_wf (k_meta r)) log.

Lemma await_acks ms : forall p f t ak rt, k_await ans ms = (p, f, t, ak, rt) ->
  forall c, In c ak -> exists n, In (n, c) ms /\ is_retry (ans n) = false.
Proof.
  induction ms as [|[s c0] ms IH]; intros p f t ak rt E c Hc.
  - cbn in E. injection E as <- <- <- <- <-. destruct Hc.
  - cbn [k_await] in E. destruct (k_await ans ms) as [[[[p0 f0] t0] ak0] rt0] eqn:Ea.
    assert (R : is_retry (ans s) = false -> In c (c0 :: ak0) -> exists n, In (n, c) ((s, c0) :: ms) /\ is_retry (ans n) = false).
    { intros Hs [<-|H]; [exists s; split; [left; reflexivity|exact Hs]|]. destruct (IH _ _ _ _ _ eq_refl c H) as (n & Hn & Hr). exists n. split; [right; exact Hn|exact Hr]. }
    destruct (ans s) as [|e m|m|] eqn:Es.
    + injection E as <- <- <- <- <-. apply R; [reflexivity|exact Hc].
    + destruct (retryable e) eqn:Er; injection E as <- <- <- <- <-.
      * destruct (IH _ _ _ _ _ eq_refl c Hc) as (n & Hn & Hr). exists n. split; [right; exact Hn|exact Hr].
      * apply R; [exact Er|exact Hc].
    + injection E as <- <- <- <- <-. apply R; [reflexivity|exact Hc].
    + injection E as <- <- <- <- <-. apply R; [reflexivity|exact Hc].
Qed.

Lemma again_logged log ms : logged log ms -> all_wf log -> honest_client ans log ->
  forall r, In r (flat_map (again ans) ms) -> meta_wf (k_meta r) /\ exists n0 r0, In (n0, k_conn r) ms /\ nth_error log n0 = Some r0 /\ same_message r0 r.
Proof.
  intros Hl Hw Hh r Hr. apply in_flat_map in Hr as ([n c] & Ha & Hr). unfold logged in Hl. rewrite Forall_forall in Hl.
  destruct (Hl _ Ha) as (r0 & Hn & Hc). cbn in Hn, Hc. subst c. unfold all_wf in Hw. rewrite Forall_forall in Hw.
  destruct (again_same ans r0 r n (Hh n r0 Hn) (Hw r0 (nth_error_In _ _ Hn)) Hr) as (S & W & _). split; [exact W|].
  exists n, r0. split; [|auto]. destruct S as (_ & _ & S & _). rewrite <- S. exact Ha.
Qed.
Lemma none_incomplete log ms : logged log ms -> honest_client ans log -> count incomplete ans (map fst ms) = 0%N.
Proof.
  intros Hl Hh. induction ms as [|[n c] ms IH]; [reflexivity|]. inversion Hl as [|? ? (r0 & Hn & _) Hl']; subst. cbn [map fst] in *. rewrite count_cons, (IH Hl').
  specialize (Hh n r0 Hn). cbn in Hn. unfold incomplete. destruct (ans n) as [|e m|m|]; try reflexivity. destruct Hh as (H1 & H2 & _). rewrite H1, H2, andb_false_r. reflexivity.
Qed.

Lemma loop_acks fuel : forall ms next lost next' calls lost' log, k_loop ans fuel ms next lost = Some (next', calls, lost') ->
  next = List.length log -> logged log ms -> all_wf log -> honest_client ans (log ++ sends calls) ->
  lost' = lost /\ all_wf (log ++ sends calls) /\
  forall a b c, calls = a ++ CAck c :: b -> exists n0 r0 n r, In (n0, Some c) ms /\ nth_error log n0 = Some r0 /\
    nth_error (log ++ sends a) n = Some r /\ same_message r0 r /\ is_retry (ans n) = false.
Proof.
  induction fuel as [|fuel IH]; intros ms next lost next' calls lost' log E Hn Hl Hw Hh.
  - destruct ms; [|discriminate]. cbn in E. injection E as <- <- <-. cbn. rewrite app_nil_r. split; [reflexivity|]. split; [exact Hw|]. intros a b c H. destruct a; discriminate.
  - destruct ms as [|m0 ms0].
    { cbn in E. injection E as <- <- <-. cbn. rewrite app_nil_r. split; [reflexivity|]. split; [exact Hw|]. intros a b c H. destruct a; discriminate. }
    set (ms := m0 :: ms0) in *. cbn [k_loop] in E. change (m0 :: ms0) with ms in E.
    destruct (k_await ans ms) as [[[[p f] t] ak] rt] eqn:Ea. pose proof (await_acks ms _ _ _ _ _ Ea) as Hak.
    destruct (await_spec ans ms _ _ _ _ _ Ea) as (_ & _ & _ & _ & A5). specialize (A5 next).
    destruct (k_resend next rt) as [[new rcalls] lost1]. destruct A5 as (B1 & B2 & B3 & _ & _ & _ & B7 & _ & B9).
    replace (match ms with [] => Some (next, [], lost) | _ :: _ => 
        match k_loop ans fuel new (next + List.length new) (lost ++ lost1) with
        | Some (next'0, calls'0, lost''0) => Some (next'0, CCount p f t :: flat_map k_ack ak ++ rcalls ++ calls'0, lost''0)
        | None => None end end) with
       (match k_loop ans fuel new (next + List.length new) (lost ++ lost1) with
        | Some (next'0, calls'0, lost''0) => Some (next'0, CCount p f t :: flat_map k_ack ak ++ rcalls ++ calls'0, lost''0)
        | None => None end) in E by reflexivity.
    destruct (k_loop ans fuel new (next + List.length new) (lost ++ lost1)) as [[[n2 c2] l2]|] eqn:El; [|discriminate].
    injection E as <- <- <-. destruct (ack_calls ak) as (K1 & K2 & _).
    assert (Es : forall x, sends (CCount p f t :: flat_map k_ack ak ++ rcalls ++ x) = sends rcalls ++ sends x).
    { intros x. change (sends (CCount p f t :: flat_map k_ack ak ++ rcalls ++ x)) with (sends (flat_map k_ack ak ++ rcalls ++ x)). rewrite !sends_app, K1. reflexivity. }
    rewrite Es in *. rewrite app_assoc in Hh |- *.
    assert (H0 : honest_client ans log) by (apply honest_prefix in Hh; apply honest_prefix in Hh; exact Hh).
    rewrite (none_incomplete log ms Hl H0) in B7. rewrite B7 in B9. assert (lost1 = []) by (destruct lost1; [reflexivity|discriminate]). subst lost1.
    pose proof (again_logged log ms Hl Hw H0) as Hag. rewrite <- B1 in Hag.
    destruct (IH _ _ _ _ _ _ (log ++ sends rcalls) El) as (I1 & I2 & I3).
    + rewrite app_length, Hn. rewrite B2 at 1. rewrite numbered_length. reflexivity.
    + unfold logged. apply Forall_forall. intros a Ha. rewrite B2 in Ha. apply (nth_numbered ans) in Ha as (i & r & H1 & H2 & H3). exists r. split; [|congruence].
      rewrite H1, Hn, nth_error_app2 by lia. replace (List.length log + i - List.length log) with i by lia. exact H2.
    + unfold all_wf. apply Forall_app. split; [exact Hw|]. apply Forall_forall. intros r Hr. apply Hag. exact Hr.
    + exact Hh.
    + rewrite app_nil_r in I1. split; [exact I1|]. split; [exact I2|]. intros a b c Hs.
      destruct a as [|k0 a]; [discriminate|]. cbn in Hs. injection Hs as <- Hs.
      apply split_app in Hs as [(b' & H1 & _)|(a' & -> & Hs)].
      * assert (Hc : In (Some c) ak).
        { assert (In c (acks (flat_map k_ack ak))) as Hi by (apply in_acks; rewrite H1; apply in_or_app; right; left; reflexivity). rewrite K2 in Hi.
          unfold somes in Hi. apply in_flat_map in Hi as ([y|] & Hy & Hi); [|destruct Hi]. destruct Hi as [<-|[]]. exact Hy. }
        destruct (Hak _ Hc) as (n & Hin & Hr). unfold logged in Hl. rewrite Forall_forall in Hl. destruct (Hl _ Hin) as (r & Hnr & _).
        exists n, r, n, r. cbn in Hnr. split; [exact Hin|]. split; [exact Hnr|]. split; [apply nth_app_l; exact Hnr|]. split; [apply same_refl|exact Hr].
      * apply split_app in Hs as [(b' & H1 & _)|(a2 & -> & Hs)].
        { exfalso. assert (In c (acks rcalls)) as Hi by (apply in_acks; rewrite H1; apply in_or_app; right; left; reflexivity). rewrite B3 in Hi. destruct Hi. }
        destruct (I3 a2 b c Hs) as (n0 & r0 & n & r & J1 & J2 & J3 & J4 & J5).
        rewrite B2 in J1. apply (nth_numbered ans) in J1 as (i & r1 & H1 & H2 & H3). cbn in H1, H3.
        assert (r1 = r0). { rewrite H1, Hn, nth_error_app2 in J2 by lia. replace (List.length log + i - List.length log) with i in J2 by lia. congruence. } subst r1.
        destruct (Hag r0 (nth_error_In _ _ H2)) as (_ & n1 & r1 & G1 & G2 & G3). exists n1, r1, n, r. split; [rewrite H3; exact G1|]. split; [exact G2|].
        change (sends (CCount p f t :: flat_map k_ack ak ++ rcalls ++ a2)) with (sends ((CCount p f t :: flat_map k_ack ak ++ rcalls ++ a2))). rewrite Es, app_assoc.
        split; [exact J3|]. split; [eapply same_trans; eassumption|exact J5].
Qed.
End Flush.

Definition odec (a b : option N) : {a = b} + {a <> b}.
Proof. decide equality. apply N.eq_dec. Defined.

Lemma count_somes l c : count_occ odec (map Some (somes l)) (Some c) = count_occ odec l (Some c).
Proof.
  induction l as [|[x|] l IH]; [reflexivity| |].
  - cbn [somes flat_map app map]. fold (somes l). cbn [count_occ]. destruct (odec (Some x) (Some c)); rewrite IH; reflexivity.
  - cbn [somes flat_map app map]. fold (somes l). cbn [count_occ]. destruct (odec None (Some c)) as [E|_]; [discriminate|exact IH].
Qed.
Lemma count_perm l l' : Permutation l l' -> forall c, count_occ odec l c = count_occ odec l' c.
Proof. intros H c. apply (proj1 (Permutation_count_occ odec l l') H). Qed.
Lemma upd_eq {V} (f : N -> V) k v : upd f k v k = v.
Proof. unfold upd. rewrite N.eqb_refl. reflexivity. Qed.
Lemma upd_ne {V} (f : N -> V) k v x : x <> k -> upd f k v x = f x.
Proof. intros H. unfold upd. destruct (N.eqb_spec x k); [contradiction|reflexivity]. Qed.

Lemma kv_wf n : forall m bs m' r, kv_loop n m bs = Some (m', r) -> NoDup (map fst m) -> NoDup (map fst m').
Proof.
  induction n as [|n IH]; intros m bs m' r E H; [cbn in E; injection E as <- <-; exact H|]. cbn [kv_loop] in E.
  destruct (take_num 1 bs) as [[kl b1]|]; [|discriminate]. destruct (take (N.to_nat kl) b1) as [[key b2]|]; [|discriminate].
  destruct (take_num 2 b2) as [[vl b3]|]; [|discriminate]. destruct (take (N.to_nat vl) b3) as [[v b4]|]; [|discriminate].
  apply (IH _ _ _ _ E). apply (ainsert_NoDup beqb beqb_eq). exact H.
Qed.
Lemma raw_wf ok c bs e : raw_of ok c bs = Some e -> meta_wf (r_metadata e) /\ r_conn e = Some c.
Proof.
  unfold raw_of, payload_from. destruct (header_from bs) as [[h b]|]; [|discriminate].
  destruct (h_version h <? 2)%N.
  - cbv beta iota zeta. destruct (ok b); [|discriminate]. intros E. injection E as <-. split; [constructor|reflexivity].
  - cbv zeta. destruct (take_num 1 b) as [[k b1]|]; [|discriminate]. destruct (k <? 1)%N.
    + destruct (ok b1); [|discriminate]. intros E. injection E as <-. split; [constructor|reflexivity].
    + destruct (kv_loop (N.to_nat k) [] b1) as [[m b2]|] eqn:El; [|discriminate]. destruct (ok b2); [|discriminate]. intros E. injection E as <-.
      split; [|reflexivity]. unfold meta_wf. cbn. apply (kv_wf _ _ _ _ _ El). constructor.
Qed.

Lemma k_rec_carries ok payloads c i e r : event_of ok payloads c i = Some e -> same_message (rec_of e) r ->
  exists bs, nth_error (payloads c) i = Some bs /\ carries ok c bs r.
Proof.
  unfold event_of. destruct (nth_error (payloads c) i) as [bs|]; [|discriminate]. intros E S. exists bs. split; [reflexivity|].
  unfold raw_of in E. unfold carries. destruct (payload_from ok bs) as [|h m blob|]; try discriminate. injection E as <-.
  destruct S as (S1 & S2 & S3 & S4). cbn in *. exists h, m. rewrite <- S1, <- S2, <- S3. auto.
Qed.

Section Pub.
Variable container_ok : list N -> bool.
Variable utf8_ok : bytes -> bool.
Variable ans : nat -> kanswer.
Variable payloads : N -> list (list N).
Variable max : nat.
Notation asks := (asks container_ok payloads).
Notation event_of := (event_of container_ok payloads).
Notation pstep := (pstep container_ok utf8_ok ans payloads).
Notation pruns := (pruns container_ok utf8_ok ans payloads max).

(** what the sink still owes answers for *)
Definition owed (s : pub) : list (option N) := map r_conn (p_queue s) ++ map snd (q_messages (p_sink s)) ++ map Some (acks (p_todo s)).
Definition owing (s : pub) (c : N) : nat := count_occ odec (owed s) (Some c).
Lemma owing_split s c : owing s c = count_occ odec (map r_conn (p_queue s)) (Some c) + count_occ odec (map snd (q_messages (p_sink s))) (Some c) + count_occ odec (map Some (acks (p_todo s))) (Some c).
Proof. unfold owing, owed. rewrite !count_occ_app. lia. Qed.

(** the payload [i] of [c] was given to the broker, who answered for good *)
Definition settled (log : list krec) (c : N) (i : nat) : Prop :=
  exists e n r, event_of c i = Some e /\ nth_error log n = Some r /\ same_message (rec_of e) r /\ is_retry (ans n) = false.
Lemma settled_more log l c i : settled log c i -> settled (log ++ l) c i.
Proof. intros (e & n & r & H1 & H2 & H3). exists e, n, r. split; [exact H1|]. split; [apply nth_app_l; exact H2|exact H3]. Qed.

(** all that is known of the sink, whatever the connections *)
Record sound (log : list krec) (s : pub) : Prop := mkSound {
  so_ok : k_ok (log ++ sends (p_todo s)) (p_sink s);
  so_wf : all_wf (log ++ sends (p_todo s));
  so_queue : Forall (fun e => meta_wf (r_metadata e)) (p_queue s);
}.
(** what is known of a connection whose payloads all ask for an answer *)
Record known (log : list krec) (s : pub) (c : N) : Prop := mkKnown {
  kn_queue : forall e, In e (p_queue s) -> r_conn e = Some c -> event_of c (fst (p_conn s c)) = Some e;
  kn_sent : forall n, In (n, Some c) (q_messages (p_sink s)) -> exists e r, event_of c (fst (p_conn s c)) = Some e /\ nth_error (log ++ sends (p_todo s)) n = Some r /\ same_message (rec_of e) r;
  kn_acks : forall a b, p_todo s = a ++ CAck c :: b -> settled (log ++ sends a) c (fst (p_conn s c));
  kn_phase : match snd (p_conn s c) with
             | PReady => owing s c = 0
             | PPrepared => owing s c = 0 /\ p_bag s c = Some 0
             | PSent => exists n, p_bag s c = Some n /\ n + owing s c <= 1 /\ (0 < n -> settled log c (fst (p_conn s c)))
             | PWoken | PRemoved => owing s c = 0 /\ settled log c (fst (p_conn s c))
             end;
}.

Lemma given_app a b : given (a ++ b) = given a ++ given b.
Proof. apply flat_map_app. Qed.
Lemma deliver_inv k e k' r : k_deliver utf8_ok k e = Some (k', [CSend r]) ->
  r = rec_of e /\ q_messages k' = q_messages k ++ [(q_next k, r_conn e)] /\ q_next k' = S (q_next k).
Proof. unfold k_deliver. destruct (forallb _ _); [|discriminate]. intros E. injection E as <- <-. auto. Qed.
Lemma k_ok_logged log k : k_ok log k <-> q_next k = List.length log /\ logged log (q_messages k).
Proof. reflexivity. Qed.
Lemma logged_more log l ms : logged log ms -> logged (log ++ l) ms.
Proof. intros H. eapply Forall_impl; [|exact H]. intros a (r & H1 & H2). exists r. split; [apply nth_app_l; exact H1|exact H2]. Qed.

Lemma flush_known s rounds k calls log : p_todo s = [] -> k_flush ans rounds (p_sink s) = Some (k, calls) -> sound log s -> honest_client ans (log ++ sends calls) ->
  q_messages k = [] /\ q_next k = List.length (log ++ sends calls) /\ all_wf (log ++ sends calls) /\
  Permutation (acks calls) (somes (map snd (q_messages (p_sink s)))) /\
  forall a b c, calls = a ++ CAck c :: b -> exists n0 r0 n r, In (n0, Some c) (q_messages (p_sink s)) /\ nth_error log n0 = Some r0 /\
    nth_error (log ++ sends a) n = Some r /\ same_message r0 r /\ is_retry (ans n) = false.
Proof.
  intros T E [[Hn Hl] Hw _] Hh. rewrite T in Hn, Hl, Hw. cbn in Hn, Hl, Hw. rewrite app_nil_r in Hn, Hl, Hw. unfold k_flush in E.
  destruct (k_loop ans rounds (q_messages (p_sink s)) (q_next (p_sink s)) []) as [[[next' c1] lost']|] eqn:El; [|discriminate].
  assert (Es : sends calls = sends c1) by (injection E as _ <-; rewrite sends_app; destruct (ack_calls lost') as (-> & _); apply app_nil_r).
  rewrite Es in Hh |- *. destruct (loop_acks ans rounds _ _ _ _ _ _ log El Hn Hl Hw Hh) as (L1 & L2 & L3). subst lost'.
  destruct (loop_spec ans _ _ _ _ _ _ _ El) as (M1 & _ & _ & _ & _ & _ & M7 & _). cbn [flat_map] in E. rewrite app_nil_r in E. injection E as <- <-.
  split; [reflexivity|]. split; [cbn; rewrite app_length; lia|]. split; [exact L2|]. split; [|exact L3].
  cbn [somes flat_map app] in M7. rewrite app_nil_r in M7. apply Permutation_sym. exact M7.
Qed.

Lemma sound_step log s l s' : sound log s -> pstep s l s' -> honest_client ans ((log ++ given [l]) ++ sends (p_todo s')) -> sound (log ++ given [l]) s'.
Proof.
  intros S Hs Hh. inversion Hs; subst; clear Hs; cbn [given flat_map app] in *; rewrite ?app_nil_r in *;
    try (destruct S as [S1 S2 S3]; split; cbn [p_todo p_sink p_queue] in *; assumption).
  - destruct S as [S1 S2 S3]. split; cbn [p_todo p_sink p_queue] in *; try assumption. destruct ok; [|exact S3]. apply Forall_app. split; [exact S3|].
    constructor; [|constructor]. unfold PublishModel.event_of in H0. destruct (nth_error _ _) as [bs|]; [|discriminate]. apply (raw_wf _ _ _ _ H0).
  - destruct S as [S1 S2 S3]. split; cbn [p_todo p_sink p_queue] in *; try assumption. destruct ok; [|exact S3]. apply Forall_app. split; [exact S3|].
    constructor; [|constructor]. unfold PublishModel.event_of in H1. destruct (nth_error _ _) as [bs|]; [|discriminate]. apply (raw_wf _ _ _ _ H1).
  - destruct S as [[S1 S4] S2 S3]. rewrite H in *. cbn [sends flat_map] in *. rewrite app_nil_r in *. rewrite H0 in S3. inversion S3; subst.
    destruct (deliver_inv _ _ _ _ H2) as (-> & Em & En). split; cbn [p_todo p_sink p_queue sends flat_map]; rewrite ?app_nil_r; [| |assumption].
    + split; [rewrite En, app_length; cbn; lia|]. rewrite Em. apply Forall_app. split; [apply logged_more; exact S4|].
      constructor; [|constructor]. cbn. exists (rec_of e). rewrite S1, nth_error_app2, Nat.sub_diag by lia. split; reflexivity.
    + apply Forall_app. split; [exact S2|]. constructor; [assumption|constructor].
  - cbn [p_todo] in Hh. destruct (flush_known s rounds k calls log H H0 S Hh) as (F1 & F2 & F3 & _). destruct S as [_ _ S3].
    split; cbn [p_todo p_sink p_queue]; [split; [exact F2|rewrite F1; constructor]|exact F3|exact S3].
  - destruct S as [S1 S2 S3]. rewrite H in *. split; cbn [p_todo p_sink p_queue]; assumption.
  - destruct S as [S1 S2 S3]. rewrite H in *. destruct k as [r| | |]; cbn [given flat_map app sends p_todo p_sink p_queue] in *; fold (sends todo) in *; rewrite ?app_nil_r in *;
      split; cbn [p_todo p_sink p_queue]; rewrite <- ?app_assoc; try assumption.
Qed.

Lemma owing_none s c : owing s c = 0 -> (forall e, In e (p_queue s) -> r_conn e <> Some c) /\ (forall n, ~ In (n, Some c) (q_messages (p_sink s))) /\ (forall a b, p_todo s <> a ++ CAck c :: b).
Proof.
  unfold owing. intros H. apply (count_occ_not_In odec) in H. unfold owed in H. split; [|split].
  - intros e He Hc. apply H. apply in_or_app. left. rewrite <- Hc. apply in_map. exact He.
  - intros n Hn. apply H. apply in_or_app. right. apply in_or_app. left. apply (in_map snd) in Hn. exact Hn.
  - intros a b E. apply H. apply in_or_app. right. apply in_or_app. right. apply in_map, in_acks. rewrite E. apply in_or_app. right. left. reflexivity.
Qed.
(** a step of a handler *)
Lemma known_handler log s s' c : p_sink s' = p_sink s -> p_todo s' = p_todo s -> known log s c ->
  (forall e, In e (p_queue s') -> r_conn e = Some c -> event_of c (fst (p_conn s' c)) = Some e) ->
  (fst (p_conn s' c) = fst (p_conn s c) \/ owing s c = 0) ->
  match snd (p_conn s' c) with
  | PReady => owing s' c = 0
  | PPrepared => owing s' c = 0 /\ p_bag s' c = Some 0
  | PSent => exists n, p_bag s' c = Some n /\ n + owing s' c <= 1 /\ (0 < n -> settled log c (fst (p_conn s' c)))
  | PWoken | PRemoved => owing s' c = 0 /\ settled log c (fst (p_conn s' c))
  end -> known log s' c.
Proof.
  intros Es Et [K1 K2 K3 _] Hq Hi Hp. split; [exact Hq| | |exact Hp].
  - rewrite Es, Et. intros n Hn. destruct Hi as [->|Hi]; [apply K2; exact Hn|]. destruct (owing_none s c Hi) as (_ & N & _). destruct (N n Hn).
  - rewrite Et. intros a b E. destruct Hi as [->|Hi]; [apply (K3 a b E)|]. destruct (owing_none s c Hi) as (_ & _ & N). destruct (N a b E).
Qed.
Lemma owing_queue s c e co b (ok : bool) : r_conn e <> Some c -> owing (mkPub co b (if ok then p_queue s ++ [e] else p_queue s) (p_sink s) (p_todo s)) c = owing s c.
Proof.
  intros H. rewrite !owing_split. cbn [p_queue p_sink p_todo]. destruct ok; [|reflexivity]. rewrite map_app, count_occ_app. cbn [map count_occ].
  destruct (odec (r_conn e) (Some c)); [contradiction|lia].
Qed.
Lemma event_conn c i e : event_of c i = Some e -> r_conn e = Some c.
Proof. unfold PublishModel.event_of. destruct (nth_error (payloads c) i) as [bs|]; [|discriminate]. intros H. apply (raw_wf _ _ _ _ H). Qed.

Lemma known_step log s l s' c : (forall i, asks c i <> Some false) -> sound log s -> known log s c -> pstep s l s' -> honest_client ans ((log ++ given [l]) ++ sends (p_todo s')) -> known (log ++ given [l]) s' c.
Proof.
  intros A S K Hs Hh. pose proof K as [K1 K2 K3 K4]. inversion Hs; subst; clear Hs; cbn [given flat_map app] in *; rewrite ?app_nil_r in *.
  - (* prepare *) destruct (N.eq_dec c0 c) as [->|Hne].
    + apply (known_handler log s); [reflexivity|reflexivity|exact K| | |]; cbn [p_conn p_bag p_queue]; rewrite ?upd_eq; rewrite H in *; cbn [fst snd] in *; auto.
    + apply (known_handler log s); [reflexivity|reflexivity|exact K| | |]; cbn [p_conn p_bag p_queue]; rewrite ?upd_ne by auto; auto.
  - (* send *) assert (Hc := event_conn _ _ _ H0). destruct (N.eq_dec c0 c) as [->|Hne].
    + rewrite H in *. cbn [fst snd] in *. destruct K4 as [K4 K5]. destruct (owing_none s c K4) as (N1 & _).
      apply (known_handler log s); [reflexivity|reflexivity|exact K| | |]; cbn [p_conn p_bag p_queue]; rewrite ?upd_eq; cbn [fst snd].
      * intros e' He' Hc'. destruct ok; [|destruct (N1 e' He' Hc')]. apply in_app_or in He' as [He'|[<-|[]]]; [destruct (N1 e' He' Hc')|exact H0].
      * left. rewrite H. reflexivity.
      * exists 0. split; [exact K5|]. split; [|lia]. rewrite owing_split in K4 |- *. cbn [p_queue p_sink p_todo]. destruct ok; [|lia].
        rewrite map_app, count_occ_app. cbn [map count_occ]. destruct (odec (r_conn e) (Some c)); lia.
    + assert (Hc2 : r_conn e <> Some c) by (rewrite Hc; congruence).
      apply (known_handler log s); [reflexivity|reflexivity|exact K| | |]; cbn [p_conn p_bag p_queue]; rewrite ?upd_ne by auto; auto.
      * intros e' He' Hc'. destruct ok; [|auto]. apply in_app_or in He' as [He'|[<-|[]]]; [auto|contradiction].
      * rewrite owing_queue by exact Hc2. exact K4.
  - (* async *) assert (Hc := event_conn _ _ _ H1). destruct (N.eq_dec c0 c) as [->|Hne]; [destruct (A i H0)|].
    assert (Hc2 : r_conn e <> Some c) by (rewrite Hc; congruence).
    apply (known_handler log s); [reflexivity|reflexivity|exact K| | |]; cbn [p_conn p_bag p_queue]; rewrite ?upd_ne by auto; auto.
    + intros e' He' Hc'. destruct ok; [|auto]. apply in_app_or in He' as [He'|[<-|[]]]; [auto|contradiction].
    + rewrite owing_queue by exact Hc2. exact K4.
  - (* wake *) destruct (N.eq_dec c0 c) as [->|Hne].
    + rewrite H in *. cbn [fst snd] in *. destruct K4 as (n & B & L & Z). assert (0 < n) by (destruct n; [congruence|lia]).
      apply (known_handler log s); [reflexivity|reflexivity|exact K| | |]; cbn [p_conn p_bag p_queue]; rewrite ?upd_eq; cbn [fst snd]; auto.
      * left. rewrite H. reflexivity.
      * split; [|auto]. change (owing s c = 0). lia.
    + apply (known_handler log s); [reflexivity|reflexivity|exact K| | |]; cbn [p_conn p_bag p_queue]; rewrite ?upd_ne by auto; auto.
  - (* remove *) destruct (N.eq_dec c0 c) as [->|Hne].
    + rewrite H in *. cbn [fst snd] in *. apply (known_handler log s); [reflexivity|reflexivity|exact K| | |]; cbn [p_conn p_bag p_queue]; rewrite ?upd_eq; cbn [fst snd]; auto.
      left. rewrite H. reflexivity.
    + apply (known_handler log s); [reflexivity|reflexivity|exact K| | |]; cbn [p_conn p_bag p_queue]; rewrite ?upd_ne by auto; auto.
  - (* answer *) destruct (N.eq_dec c0 c) as [->|Hne].
    + rewrite H in *. cbn [fst snd] in *. destruct K4 as [K4 _]. destruct (owing_none s c K4) as (N1 & _).
      apply (known_handler log s); [reflexivity|reflexivity|exact K| | |]; cbn [p_conn p_bag p_queue]; rewrite ?upd_eq; cbn [fst snd]; auto.
      intros e He Hc. destruct (N1 e He Hc).
    + apply (known_handler log s); [reflexivity|reflexivity|exact K| | |]; cbn [p_conn p_bag p_queue]; rewrite ?upd_ne by auto; auto.
  - (* deliver *) destruct (deliver_inv _ _ _ _ H2) as (-> & Em & En). destruct S as [[S1 S4] _ _]. rewrite H in *. cbn [sends flat_map] in *. rewrite app_nil_r in *.
    assert (O : owing (mkPub (p_conn s) (p_bag s) q k []) c = owing s c).
    { rewrite !owing_split. cbn [p_queue p_sink p_todo]. rewrite H, H0, Em, map_app, count_occ_app. cbn [map snd count_occ acks flat_map]. destruct (odec (r_conn e) (Some c)); lia. }
    split; cbn [p_conn p_bag p_queue p_sink p_todo].
    + intros e' He'. apply K1. rewrite H0. right. exact He'.
    + cbn [sends flat_map]. rewrite app_nil_r, Em. intros n Hn. apply in_app_or in Hn as [Hn|[Hn|[]]].
      * destruct (K2 n Hn) as (e0 & r & J1 & J2 & J3). exists e0, r. split; [exact J1|]. split; [apply nth_app_l; exact J2|exact J3].
      * injection Hn as <- Hc. exists e, (rec_of e). split; [apply K1; [rewrite H0; left; reflexivity|exact Hc]|]. split; [|apply same_refl].
        rewrite S1, nth_error_app2, Nat.sub_diag by lia. reflexivity.
    + intros a b E. destruct a; discriminate.
    + rewrite O. destruct (snd (p_conn s c)); auto.
      * destruct K4 as (n & B & L & Z). exists n. split; [exact B|]. split; [exact L|]. intros Hn. apply settled_more. auto.
      * destruct K4. split; [assumption|]. apply settled_more. assumption.
      * destruct K4. split; [assumption|]. apply settled_more. assumption.
  - (* flush *) cbn [p_todo] in Hh. destruct (flush_known s rounds k calls log H H0 S Hh) as (F1 & F2 & F3 & F4 & F5).
    assert (O : owing (mkPub (p_conn s) (p_bag s) (p_queue s) k calls) c = owing s c).
    { rewrite !owing_split. cbn [p_queue p_sink p_todo]. rewrite H, F1. cbn [map count_occ acks flat_map].
      rewrite (count_perm _ _ (Permutation_map Some F4)), count_somes. lia. }
    split; cbn [p_conn p_bag p_queue p_sink p_todo].
    + exact K1.
    + rewrite F1. intros n [].
    + intros a b E. destruct (F5 a b c E) as (n0 & r0 & n & r & J1 & J2 & J3 & J4 & J5). destruct (K2 n0 J1) as (e & r1 & G1 & G2 & G3).
      rewrite H in G2. cbn [sends flat_map] in G2. rewrite app_nil_r in G2. assert (r1 = r0) by congruence. subst r1.
      exists e, n, r. split; [exact G1|]. split; [exact J3|]. split; [eapply same_trans; eassumption|exact J5].
    + rewrite O. exact K4.
  - (* ack *) assert (Hx : forall a b, todo = a ++ CAck c :: b -> settled (log ++ sends a) c (fst (p_conn s c))).
    { intros a b E. apply (K3 (CAck c0 :: a) b). rewrite H, E. reflexivity. }
    assert (O : owing s c = owing (mkPub (p_conn s) (match p_bag s c0 with Some n => upd (p_bag s) c0 (Some (Datatypes.S n)) | None => p_bag s end) (p_queue s) (p_sink s) todo) c + if N.eqb c0 c then 1 else 0).
    { rewrite !owing_split. cbn [p_queue p_sink p_todo]. rewrite H. cbn [acks flat_map app map]. fold (acks todo). cbn [count_occ]. destruct (odec (Some c0) (Some c)) as [E|E]; destruct (N.eqb_spec c0 c); try congruence; lia. }
    split; cbn [p_conn p_bag p_queue p_sink p_todo].
    + exact K1.
    + intros n Hn. destruct (K2 n Hn) as (e & r & G). exists e, r. rewrite H in G. exact G.
    + exact Hx.
    + destruct (N.eqb_spec c0 c) as [->|Hne].
      * destruct (snd (p_conn s c)); try lia; try (destruct K4; lia). destruct K4 as (n & B & L & Z). rewrite B in O |- *. exists (Datatypes.S n). rewrite upd_eq. split; [reflexivity|]. split; [lia|].
        intros _. specialize (K3 [] todo). cbn in K3. rewrite app_nil_r in K3. apply K3. exact H.
      * rewrite Nat.add_0_r in O. rewrite <- O. assert (Hb : match p_bag s c0 with Some n => upd (p_bag s) c0 (Some (Datatypes.S n)) | None => p_bag s end c = p_bag s c).
        { destruct (p_bag s c0); [|reflexivity]. apply upd_ne. congruence. } rewrite Hb. exact K4.
  - (* other calls *) assert (L0 : forall x, log ++ sends (k :: x) = (log ++ match k with CSend r => [r] | _ => [] end) ++ sends x).
    { intros x. destruct k; cbn [sends flat_map]; rewrite <- ?app_assoc, ?app_nil_r; reflexivity. }
    assert (O : owing (mkPub (p_conn s) (p_bag s) (p_queue s) (p_sink s) todo) c = owing s c).
    { rewrite !owing_split. cbn [p_queue p_sink p_todo]. rewrite H. destruct k; try reflexivity. destruct (H0 c0 Logic.eq_refl). }
    split; cbn [p_conn p_bag p_queue p_sink p_todo].
    + exact K1.
    + intros n Hn. destruct (K2 n Hn) as (e & r & G). exists e, r. rewrite H, L0 in G. exact G.
    + intros a b E. rewrite <- L0. apply (K3 (k :: a) b). rewrite H, E. reflexivity.
    + rewrite O. destruct (snd (p_conn s c)); auto.
      * destruct K4 as (n & B & L & Z). exists n. split; [exact B|]. split; [exact L|]. intros Hn. apply settled_more. auto.
      * destruct K4. split; [assumption|]. apply settled_more. assumption.
      * destruct K4. split; [assumption|]. apply settled_more. assumption.
Qed.
Lemma runs_known tr s : pruns tr s -> honest_client ans (given tr ++ sends (p_todo s)) -> sound (given tr) s /\ forall c, (forall i, asks c i <> Some false) -> known (given tr) s c.
Proof.
  induction 1 as [|tr s l s' R IH Hs]; intros Hh.
  - split; [split; cbn; [split; [reflexivity|constructor]|constructor|constructor]|]. intros c _. split; cbn; try contradiction; [|reflexivity]. intros a b E. destruct a; discriminate.
  - rewrite given_app in Hh |- *.
    assert (H0 : honest_client ans (given tr ++ sends (p_todo s))).
    { inversion Hs; subst; cbn [given flat_map app p_todo] in Hh; rewrite ?app_nil_r in Hh; try exact Hh.
      - rewrite H. cbn [sends flat_map]. rewrite app_nil_r. apply honest_prefix in Hh. exact Hh.
      - rewrite H. cbn [sends flat_map]. rewrite app_nil_r. apply honest_prefix in Hh. exact Hh.
      - rewrite H. exact Hh.
      - rewrite H. rewrite <- app_assoc in Hh. destruct k; exact Hh. }
    destruct (IH H0) as [S K]. split; [eapply sound_step; eassumption|]. intros c A. eapply known_step; eauto.
Qed.
Lemma runs_split tr s : pruns tr s -> forall t1 l t2, tr = t1 ++ l :: t2 -> exists s1 s2, pruns t1 s1 /\ pstep s1 l s2.
Proof.
  induction 1 as [|tr s l0 s' R IH Hs]; intros t1 l t2 E; [destruct t1; discriminate|].
  destruct t2 as [|x t2] using rev_ind.
  - apply app_inj_tail in E as [-> ->]. exists s, s'. auto.
  - clear IHt2. change (t1 ++ l :: t2 ++ [x]) with (t1 ++ (l :: t2) ++ [x]) in E. rewrite app_assoc in E. apply app_inj_tail in E as [-> _]. apply (IH t1 l t2 Logic.eq_refl).
Qed.

(** ** That a payload can be answered *)
Inductive psteps : pub -> list plabel -> pub -> Prop :=
| psteps_nil s : psteps s [] s
| psteps_cons s l s1 tr s2 : pstep s l s1 -> psteps s1 tr s2 -> psteps s (l :: tr) s2.
Lemma psteps_app s t1 s1 t2 s2 : psteps s t1 s1 -> psteps s1 t2 s2 -> psteps s (t1 ++ t2) s2.
Proof. induction 1; cbn; [auto|]. intros H2. econstructor; eauto. Qed.
Lemma psteps_runs tr s t s' : pruns tr s -> psteps s t s' -> pruns (tr ++ t) s'.
Proof.
  intros R H. revert tr R. induction H as [s|s l s1 t s2 Hs H IH]; intros tr R; [rewrite app_nil_r; exact R|].
  change (l :: t) with ([l] ++ t). rewrite app_assoc. apply IH. econstructor; eassumption.
Qed.
(** an answer is on its way *)
Definition hope (s : pub) (c : N) : Prop := exists n, p_bag s c = Some n /\ 1 <= n + owing s c.
(** states of the handlers do not change, answers on their way do not get lost *)
Definition keeps (s s' : pub) : Prop := p_conn s' = p_conn s /\ (forall c, hope s c -> hope s' c).
Lemma keeps_trans a b c : keeps a b -> keeps b c -> keeps a c.
Proof. intros [A1 A2] [B1 B2]. split; [congruence|auto]. Qed.
Lemma keeps_refl s : keeps s s.
Proof. split; auto. Qed.

Lemma drain : forall todo s, p_todo s = todo -> exists t s', psteps s t s' /\ keeps s s' /\ p_todo s' = [] /\ p_queue s' = p_queue s /\ p_sink s' = p_sink s.
Proof.
  induction todo as [|k todo IH]; intros s E; [exists [], s; split; [constructor|]; split; [apply keeps_refl|auto]|].
  assert (G : exists s1, pstep s (PCall k) s1 /\ keeps s s1 /\ p_todo s1 = todo /\ p_queue s1 = p_queue s /\ p_sink s1 = p_sink s).
  { destruct k as [r|c|p f t|];
      [eexists; split; [apply p_call; [exact E|discriminate]|]|eexists; split; [apply p_ack; exact E|]|eexists; split; [apply p_call; [exact E|discriminate]|]|eexists; split; [apply p_call; [exact E|discriminate]|]];
      (split; [|auto]); (split; [reflexivity|]); intros c' (n & B & L); unfold hope; rewrite owing_split in *; rewrite E in L; cbn [p_bag p_queue p_sink p_todo acks flat_map app map] in *; fold (acks todo) in *; eauto.
    cbn [count_occ] in L. destruct (odec (Some c) (Some c')) as [Ec|Ec].
    - injection Ec as ->. exists (Datatypes.S n). rewrite B, upd_eq. split; [reflexivity|lia].
    - exists n. split; [|lia]. destruct (p_bag s c); [|exact B]. rewrite upd_ne by congruence. exact B. }
  destruct G as (s1 & S1 & K1 & T1 & Q1 & X1). destruct (IH s1 T1) as (t & s' & R & K2 & T2 & Q2 & X2).
  exists (PCall k :: t), s'. split; [econstructor; eassumption|]. split; [eapply keeps_trans; eassumption|]. split; [exact T2|]. split; congruence.
Qed.
Hypothesis quiet : exists B, forall n, B <= n -> is_retry (ans n) = false.
Lemma flush_done s : p_todo s = [] -> exists t s', psteps s t s' /\ keeps s s' /\ p_todo s' = [] /\ p_queue s' = p_queue s /\ q_messages (p_sink s') = [] /\ q_bytes (p_sink s') = 0 /\ q_max (p_sink s') = q_max (p_sink s).
Proof.
  intros T. destruct quiet as [B HB].
  assert (F : exists n k calls, k_flush ans n (p_sink s) = Some (k, calls)).
  { unfold k_flush. pose proof (loop_finishes ans B HB B (q_messages (p_sink s)) (q_next (p_sink s)) [] ltac:(lia)) as H.
    exists (Datatypes.S (Datatypes.S B)). destruct (k_loop ans (Datatypes.S (Datatypes.S B)) (q_messages (p_sink s)) (q_next (p_sink s)) []) as [[[? ?] ?]|]; [eauto|contradiction]. }
  destruct F as (n & k & calls & F).
  assert (G : q_messages k = [] /\ q_bytes k = 0 /\ q_max k = q_max (p_sink s) /\ Permutation (acks calls) (somes (map snd (q_messages (p_sink s))))).
  { unfold k_flush in F. destruct (k_loop ans n (q_messages (p_sink s)) (q_next (p_sink s)) []) as [[[next' c1] lost']|] eqn:El; [|discriminate]. injection F as <- <-.
    destruct (loop_spec ans _ _ _ _ _ _ _ El) as (_ & _ & _ & _ & _ & _ & M7 & _). destruct (ack_calls lost') as (_ & K2 & _). rewrite acks_app, K2.
    cbn [somes flat_map app] in M7. split; [reflexivity|]. split; [reflexivity|]. split; [reflexivity|]. apply Permutation_sym. exact M7. }
  destruct G as (G1 & G2 & G3 & G4).
  set (s1 := mkPub (p_conn s) (p_bag s) (p_queue s) k calls). assert (S1 : pstep s PFlush s1) by (eapply p_flush; eassumption).
  assert (K1 : keeps s s1).
  { split; [reflexivity|]. intros c (m & Bm & L). exists m. split; [exact Bm|]. rewrite owing_split in *. rewrite T in L. cbn [s1 p_bag p_queue p_sink p_todo acks flat_map map count_occ] in *.
    rewrite G1. cbn [map count_occ]. rewrite (count_perm _ _ (Permutation_map Some G4)), count_somes. lia. }
  destruct (drain calls s1 Logic.eq_refl) as (t & s' & R & K2 & T2 & Q2 & X2).
  exists (PFlush :: t), s'. split; [econstructor; eassumption|]. split; [eapply keeps_trans; eassumption|]. split; [exact T2|]. rewrite Q2, X2. auto.
Qed.
Definition fine (e : raw) : Prop := forallb utf8_ok (match r_metadata e with Some m => map fst m | None => [] end) = true.
Lemma take_all : forall q s, p_queue s = q -> Forall fine q -> p_todo s = [] -> 0 < q_max (p_sink s) ->
  exists t s', psteps s t s' /\ keeps s s' /\ p_todo s' = [] /\ p_queue s' = [] /\ 0 < q_max (p_sink s').
Proof.
  induction q as [|e q IH]; intros s Eq F T M; [exists [], s; split; [constructor|]; split; [apply keeps_refl|auto]|].
  inversion F as [|? ? Fe Fq]; subst.
  assert (G : exists t s1, psteps s t s1 /\ keeps s s1 /\ p_todo s1 = [] /\ p_queue s1 = p_queue s /\ q_max (p_sink s1) = q_max (p_sink s) /\ k_valve_open (p_sink s1) = true).
  { destruct (k_valve_open (p_sink s)) eqn:V; [exists [], s; split; [constructor|]; split; [apply keeps_refl|auto]|].
    destruct (flush_done s T) as (t & s1 & R & K & T1 & Q1 & M1 & B1 & X1). exists t, s1. split; [exact R|]. split; [exact K|]. split; [exact T1|]. split; [exact Q1|]. split; [exact X1|].
    unfold k_valve_open. rewrite B1, X1. apply Nat.ltb_lt. exact M. }
  destruct G as (t & s1 & R & K & T1 & Q1 & X1 & V1). rewrite Eq in Q1.
  assert (D : exists k r, k_deliver utf8_ok (p_sink s1) e = Some (k, [CSend r]) /\ q_max k = q_max (p_sink s1)).
  { unfold k_deliver. cbv zeta. match goal with |- context [forallb ?a ?b] => destruct (forallb a b) eqn:Ef end; [eexists; eexists; split; reflexivity|]. unfold fine in Fe. exfalso. change (forallb utf8_ok (match r_metadata e with Some m => map fst m | None => [] end) = false) in Ef. congruence. }
  destruct D as (k & r & D & X2). set (s2 := mkPub (p_conn s1) (p_bag s1) q k []).
  assert (S2 : pstep s1 (PDeliver r) s2) by (eapply p_deliver; eassumption).
  assert (K2 : keeps s1 s2).
  { split; [reflexivity|]. intros c (m & Bm & L). exists m. split; [exact Bm|]. rewrite owing_split in *. destruct (deliver_inv _ _ _ _ D) as (_ & Em & _).
    rewrite T1, Q1 in L. cbn [s2 p_bag p_queue p_sink p_todo acks flat_map map count_occ] in *. rewrite Em, map_app, count_occ_app. cbn [map snd count_occ]. destruct (odec (r_conn e) (Some c)); lia. }
  destruct (IH s2 Logic.eq_refl Fq Logic.eq_refl) as (t3 & s3 & R3 & K3 & T3 & Q3 & M3); [cbn [s2 p_sink]; lia|].
  exists (t ++ PDeliver r :: t3), s3. split; [eapply psteps_app; [exact R|]; econstructor; eassumption|]. split; [eapply keeps_trans; [exact K|]; eapply keeps_trans; eassumption|]. auto.
Qed.
(** what holds of every execution *)
Record track (tr : list plabel) (s : pub) : Prop := mkTrack {
  tk_queue : forall e, In e (p_queue s) -> exists c i, event_of c i = Some e;
  tk_sent : forall c i ok, In (PSend c i ok) tr -> i < fst (p_conn s c) \/ i = fst (p_conn s c) /\ (snd (p_conn s c) = PSent \/ snd (p_conn s c) = PWoken \/ snd (p_conn s c) = PRemoved);
  tk_bag : forall c, match snd (p_conn s c) with PPrepared => exists n, p_bag s c = Some n | PSent => In (PSend c (fst (p_conn s c)) true) tr -> hope s c | _ => True end;
  tk_max : q_max (p_sink s) = max;
}.
Lemma in_snoc_send tr l c i ok : In (PSend c i ok) (tr ++ [l]) -> In (PSend c i ok) tr \/ l = PSend c i ok.
Proof. intros H. apply in_app_or in H as [H|[H|[]]]; auto. Qed.
Lemma hope_same s s' c : p_bag s' c = p_bag s c -> owing s' c = owing s c -> hope s c -> hope s' c.
Proof. intros B O (n & H1 & H2). exists n. rewrite B, O. auto. Qed.
Lemma hope_grow s s' c : p_bag s' c = p_bag s c -> owing s c <= owing s' c -> hope s c -> hope s' c.
Proof. intros B O (n & H1 & H2). exists n. rewrite B. split; [exact H1|lia]. Qed.
Lemma grow_queue s c e co b (ok : bool) : owing s c <= owing (mkPub co b (if ok then p_queue s ++ [e] else p_queue s) (p_sink s) (p_todo s)) c.
Proof. rewrite !owing_split. cbn [p_queue p_sink p_todo]. destruct ok; [|lia]. rewrite map_app, count_occ_app. lia. Qed.
(** a step of a handler that sends nothing *)
Lemma track_handler tr s l s' c p : track tr s -> (forall c i ok, l <> PSend c i ok) -> p_queue s' = p_queue s -> p_sink s' = p_sink s -> p_todo s' = p_todo s -> p_conn s' = upd (p_conn s) c p ->
  (forall x, x <> c -> p_bag s' x = p_bag s x) ->
  (fst (p_conn s c) < fst p \/ fst p = fst (p_conn s c) /\ (snd (p_conn s c) = PReady \/ snd (p_conn s c) = PPrepared \/ snd p = PSent \/ snd p = PWoken \/ snd p = PRemoved)) ->
  match snd p with PPrepared => exists n, p_bag s' c = Some n | PSent => False | _ => True end -> track (tr ++ [l]) s'.
Proof.
  intros [T1 T2 T3 T4] Hl Q X Td C B Hi Hp.
  assert (O : forall x, owing s' x = owing s x) by (intros x; unfold owing, owed; rewrite Q, X, Td; reflexivity).
  split.
  - rewrite Q. exact T1.
  - intros c1 i ok H. apply in_snoc_send in H as [H|H]; [|destruct (Hl _ _ _ H)]. specialize (T2 c1 i ok H). rewrite C. destruct (N.eq_dec c1 c) as [->|Hne]; [|rewrite upd_ne by exact Hne; exact T2].
    rewrite upd_eq. destruct T2 as [T2|[T2 T5]]; [left; destruct Hi as [Hi|[Hi _]]; lia|]. destruct Hi as [Hi|[Hi Hi2]]; [left; lia|]. right. split; [congruence|].
    destruct Hi2 as [Hi2|[Hi2|Hi2]]; [exfalso; rewrite Hi2 in T5; destruct T5 as [T5|[T5|T5]]; discriminate|exfalso; rewrite Hi2 in T5; destruct T5 as [T5|[T5|T5]]; discriminate|exact Hi2].
  - intros c1. rewrite C. destruct (N.eq_dec c1 c) as [->|Hne].
    + rewrite upd_eq. destruct (snd p); auto. destruct Hp.
    + rewrite upd_ne by exact Hne. specialize (T3 c1). destruct (snd (p_conn s c1)); auto; [rewrite B by exact Hne; exact T3|].
      intros H. apply in_snoc_send in H as [H|H]; [|destruct (Hl _ _ _ H)]. apply (hope_same s); auto.
  - rewrite X. exact T4.
Qed.
(** a step of the sink *)
Lemma track_sink tr s l s' : track tr s -> (forall c i ok, l <> PSend c i ok) -> keeps s s' -> (forall e, In e (p_queue s') -> In e (p_queue s)) ->
  (forall c n, p_bag s c = Some n -> exists n', p_bag s' c = Some n') -> q_max (p_sink s') = q_max (p_sink s) -> track (tr ++ [l]) s'.
Proof.
  intros [T1 T2 T3 T4] Hl [C K] Q B M. split.
  - intros e He. apply T1, Q, He.
  - intros c i ok H. apply in_snoc_send in H as [H|H]; [|destruct (Hl _ _ _ H)]. rewrite C. eauto.
  - intros c. specialize (T3 c). rewrite C. destruct (snd (p_conn s c)); auto; [destruct T3 as [n Hn]; eauto|].
    intros H. apply in_snoc_send in H as [H|H]; [|destruct (Hl _ _ _ H)]. auto.
  - congruence.
Qed.
Lemma runs_track tr s : pruns tr s -> track tr s.
Proof.
  induction 1 as [|tr s l s' R IH Hs].
  - split; cbn; [intros e []|intros c i ok []|intros c; exact Logic.I|reflexivity].
  - inversion Hs; subst.
    + eapply (track_handler tr s (PPrepare c i) _ c (i, PPrepared)); eauto; try reflexivity; try discriminate; cbn [p_bag fst snd].
      * intros x Hx. apply upd_ne. exact Hx.
      * rewrite H. cbn. auto.
      * rewrite upd_eq. eauto.
    + (* send *) destruct IH as [T1 T2 T3 T4]. split; cbn [p_conn p_bag p_queue p_sink p_todo].
      * intros e' He'. destruct ok; [|auto]. apply in_app_or in He' as [He'|[<-|[]]]; [auto|exists c, i; assumption].
      * intros c1 i1 ok1 Hi. destruct (N.eq_dec c1 c) as [->|Hne].
        -- rewrite upd_eq. cbn [fst snd]. apply in_snoc_send in Hi as [Hi|Hi].
           ++ destruct (T2 c i1 ok1 Hi) as [T|[T T5]]; rewrite H in *; cbn [fst snd] in *; [left; exact T|]. destruct T5 as [T5|[T5|T5]]; discriminate.
           ++ injection Hi as <- _. right. auto.
        -- rewrite upd_ne by exact Hne. apply in_snoc_send in Hi as [Hi|Hi]; [eauto|]. injection Hi as Hi _. congruence.
      * intros c1. destruct (N.eq_dec c1 c) as [->|Hne].
        -- rewrite upd_eq. cbn [fst snd]. intros Hi. specialize (T3 c). rewrite H in T3. cbn in T3. destruct T3 as [n Hn].
           apply in_snoc_send in Hi as [Hi|Hi]; [destruct (T2 c i true Hi) as [T|[T T5]]; rewrite H in *; cbn [fst snd] in *; [lia|]; destruct T5 as [T5|[T5|T5]]; discriminate|].
           injection Hi as ->. exists n. split; [exact Hn|]. rewrite owing_split. cbn [p_queue p_sink p_todo]. rewrite map_app, count_occ_app. cbn [map count_occ]. rewrite (event_conn _ _ _ H0).
           destruct (odec (Some c) (Some c)); [lia|congruence].
        -- rewrite upd_ne by exact Hne. specialize (T3 c1). destruct (snd (p_conn s c1)); auto. intros Hi. apply in_snoc_send in Hi as [Hi|Hi]; [|injection Hi as Hi _; congruence].
           apply (hope_grow s); [reflexivity|apply grow_queue|auto].
      * exact T4.
    + (* async *) destruct IH as [T1 T2 T3 T4]. split; cbn [p_conn p_bag p_queue p_sink p_todo].
      * intros e' He'. destruct ok; [|auto]. apply in_app_or in He' as [He'|[<-|[]]]; [auto|exists c, i; assumption].
      * intros c1 i1 ok1 Hi. destruct (N.eq_dec c1 c) as [->|Hne].
        -- rewrite upd_eq. cbn [fst snd]. left. apply in_snoc_send in Hi as [Hi|Hi].
           ++ destruct (T2 c i1 ok1 Hi) as [T|[T T5]]; rewrite H in *; cbn [fst snd] in *; lia.
           ++ injection Hi as <- _. lia.
        -- rewrite upd_ne by exact Hne. apply in_snoc_send in Hi as [Hi|Hi]; [eauto|]. injection Hi as Hi _. congruence.
      * intros c1. destruct (N.eq_dec c1 c) as [->|Hne].
        -- rewrite upd_eq. cbn [snd]. exact Logic.I.
        -- rewrite upd_ne by exact Hne. specialize (T3 c1). destruct (snd (p_conn s c1)); auto. intros Hi. apply in_snoc_send in Hi as [Hi|Hi]; [|injection Hi as Hi _; congruence].
           apply (hope_grow s); [reflexivity|apply grow_queue|auto].
      * exact T4.
    + eapply (track_handler tr s (PWake c i) _ c (i, PWoken)); eauto; try reflexivity; try discriminate; cbn [p_bag fst snd].
      rewrite H. cbn. auto 10.
    + eapply (track_handler tr s (PRemove c i) _ c (i, PRemoved)); eauto; try reflexivity; try discriminate; cbn [p_bag fst snd].
      * intros x Hx. apply upd_ne. exact Hx.
      * rewrite H. cbn. auto 10.
    + eapply (track_handler tr s (PAnswer c i) _ c (Datatypes.S i, PReady)); eauto; try reflexivity; try discriminate; cbn [p_bag fst snd].
      rewrite H. cbn. auto.
    + destruct (deliver_inv _ _ _ _ H2) as (_ & Em & _). eapply (track_sink tr s); [exact IH|discriminate| | |eauto|].
      * split; [reflexivity|]. intros c. apply hope_same; [reflexivity|]. rewrite !owing_split. cbn [p_queue p_sink p_todo]. rewrite H, H0, Em, map_app, count_occ_app. cbn [map snd count_occ acks flat_map]. destruct (odec (r_conn e) (Some c)); lia.
      * intros e' He'. rewrite H0. right. exact He'.
      * unfold k_deliver in H2. destruct (forallb _ _) in H2; [|discriminate]. injection H2 as <- _. reflexivity.
    + assert (G : q_messages k = [] /\ q_max k = q_max (p_sink s) /\ Permutation (acks calls) (somes (map snd (q_messages (p_sink s))))).
      { unfold k_flush in H0. destruct (k_loop ans rounds (q_messages (p_sink s)) (q_next (p_sink s)) []) as [[[next' c1] lost']|] eqn:El; [|discriminate]. injection H0 as <- <-.
        destruct (loop_spec ans _ _ _ _ _ _ _ El) as (_ & _ & _ & _ & _ & _ & M7 & _). destruct (ack_calls lost') as (_ & K2 & _). rewrite acks_app, K2.
        cbn [somes flat_map app] in M7. split; [reflexivity|]. split; [reflexivity|]. apply Permutation_sym. exact M7. }
      destruct G as (G1 & G3 & G4). eapply (track_sink tr s); [exact IH|discriminate| |auto|eauto|exact G3].
      split; [reflexivity|]. intros c. apply hope_same; [reflexivity|]. rewrite !owing_split. cbn [p_queue p_sink p_todo]. rewrite H, G1. cbn [map count_occ acks flat_map].
      rewrite (count_perm _ _ (Permutation_map Some G4)), count_somes. lia.
    + eapply (track_sink tr s); [exact IH|discriminate| |auto| |reflexivity]; cbn [p_bag].
      * split; [reflexivity|]. intros c1 (n & B & L). unfold hope. rewrite owing_split in *. rewrite H in L. cbn [p_bag p_queue p_sink p_todo acks flat_map app map] in *. fold (acks todo) in *. cbn [count_occ] in L.
        destruct (odec (Some c) (Some c1)) as [Ec|Ec]; [injection Ec as ->; exists (Datatypes.S n); rewrite B, upd_eq; split; [reflexivity|lia]|].
        exists n. split; [|lia]. destruct (p_bag s c); [|exact B]. rewrite upd_ne by congruence. exact B.
      * intros c1 n B. destruct (p_bag s c) eqn:Ec; [|eauto]. destruct (N.eq_dec c1 c) as [->|Hne]; [rewrite upd_eq; eauto|rewrite upd_ne by exact Hne; eauto].
    + eapply (track_sink tr s); [exact IH|discriminate| |auto|eauto|reflexivity].
      split; [reflexivity|]. intros c. apply hope_same; [reflexivity|]. rewrite !owing_split. cbn [p_queue p_sink p_todo]. rewrite H. destruct k; try reflexivity. destruct (H0 c0 Logic.eq_refl).
Qed.
Lemma can_answer tr s c i : pruns tr s -> 0 < max -> (forall c i e, event_of c i = Some e -> fine e) -> p_conn s c = (i, PSent) -> In (PSend c i true) tr ->
  exists t s', pruns (tr ++ t ++ [PAnswer c i]) s'.
Proof.
  intros R Hm Hf Hc Hi. destruct (runs_track tr s R) as [T1 _ T3 T4].
  assert (Hh : hope s c) by (specialize (T3 c); rewrite Hc in T3; cbn in T3; auto).
  destruct (drain (p_todo s) s Logic.eq_refl) as (t1 & s1 & R1 & K1 & D1 & Q1 & X1).
  destruct (take_all (p_queue s1) s1 Logic.eq_refl) as (t2 & s2 & R2 & K2 & D2 & Q2 & M2); [|exact D1|rewrite X1, T4; exact Hm|].
  { apply Forall_forall. intros e He. rewrite Q1 in He. destruct (T1 e He) as (c1 & i1 & E). eapply Hf. exact E. }
  destruct (flush_done s2 D2) as (t3 & s3 & R3 & K3 & D3 & Q3 & M3 & _).
  assert (K : keeps s s3) by (eapply keeps_trans; [exact K1|]; eapply keeps_trans; eassumption). destruct K as [Kc Kh].
  destruct (Kh c Hh) as (n & B & L). assert (O : owing s3 c = 0) by (rewrite owing_split, Q3, Q2, M3, D3; reflexivity).
  assert (C3 : p_conn s3 c = (i, PSent)) by (rewrite Kc; exact Hc).
  pose proof (p_wake container_ok utf8_ok ans payloads s3 c i C3 ltac:(rewrite B; intros E; injection E; lia)) as S4. match type of S4 with PublishModel.pstep _ _ _ _ _ _ ?x => set (s4 := x) in * end.
  pose proof (p_remove container_ok utf8_ok ans payloads s4 c i ltac:(cbn [s4 p_conn]; apply upd_eq)) as S5. match type of S5 with PublishModel.pstep _ _ _ _ _ _ ?x => set (s5 := x) in * end.
  pose proof (p_answer container_ok utf8_ok ans payloads s5 c i ltac:(cbn [s5 p_conn]; apply upd_eq)) as S6. match type of S6 with PublishModel.pstep _ _ _ _ _ _ ?x => set (s6 := x) in * end.
  exists (t1 ++ t2 ++ t3 ++ [PWake c i; PRemove c i]), s6. apply (psteps_runs tr s); [exact R|]. rewrite <- !app_assoc.
  eapply psteps_app; [exact R1|]. eapply psteps_app; [exact R2|]. eapply psteps_app; [exact R3|]. cbn [app].
  econstructor; [exact S4|]. econstructor; [exact S5|]. econstructor; [exact S6|constructor].
Qed.
(** ** Answers already given, and payloads that get none *)
Lemma passed tr s : pruns tr s -> forall c i, asks c i = Some true -> i < fst (p_conn s c) -> In (PAnswer c i) tr.
Proof.
  induction 1 as [|tr s l s' R IH Hs]; intros c i A L; [cbn in L; lia|]. apply in_or_app.
  inversion Hs; subst; cbn [p_conn] in L; try (left; apply IH; assumption);
    (destruct (N.eq_dec c c0) as [->|Hne]; [rewrite upd_eq in L; cbn [fst] in L|rewrite upd_ne in L by exact Hne; left; apply IH; assumption]);
    try (left; apply IH; [exact A|]; rewrite H; exact L).
  - destruct (Nat.eq_dec i i0) as [->|]; [congruence|]. left. apply IH; [exact A|]. rewrite H. cbn [fst]. lia.
  - destruct (Nat.eq_dec i i0) as [->|]; [right; left; reflexivity|]. left. apply IH; [exact A|]. rewrite H. cbn [fst]. lia.
Qed.
Lemma can_answer_unless tr s c i : pruns tr s -> 0 < max -> (forall c i e, event_of c i = Some e -> fine e) -> asks c i = Some true -> In (PSend c i true) tr -> ~ In (PAnswer c i) tr ->
  exists t s', pruns (tr ++ t ++ [PAnswer c i]) s'.
Proof.
  intros R Hm Hf A Hi Hn. destruct (tk_sent _ _ (runs_track tr s R) c i true Hi) as [L|[E Hp]]; [destruct Hn; eapply passed; eassumption|].
  destruct (p_conn s c) as [j ph] eqn:Hc. cbn [fst snd] in *. subst j. destruct Hp as [->|[->| ->]].
  - eapply can_answer; eassumption.
  - pose proof (p_remove container_ok utf8_ok ans payloads s c i Hc) as S5. match type of S5 with PublishModel.pstep _ _ _ _ _ _ ?x => set (s5 := x) in * end.
    pose proof (p_answer container_ok utf8_ok ans payloads s5 c i ltac:(cbn [s5 p_conn]; apply upd_eq)) as S6.
    eexists [PRemove c i], _. apply (psteps_runs tr s); [exact R|]. econstructor; [exact S5|]. econstructor; [exact S6|constructor].
  - eexists [], _. apply (psteps_runs tr s); [exact R|]. econstructor; [eapply p_answer; exact Hc|constructor].
Qed.
(** waiting for an answer nobody will give *)
Definition stuck (s : pub) (c : N) (i : nat) : Prop := p_conn s c = (i, PSent) /\ p_bag s c = Some 0 /\ owing s c = 0.
Lemma stuck_step s l s' c i : stuck s c i -> pstep s l s' -> stuck s' c i.
Proof.
  intros (C & B & O) Hs. unfold stuck.
  assert (Ho : forall co b, owing (mkPub co b (p_queue s) (p_sink s) (p_todo s)) c = 0) by (intros; exact O).
  inversion Hs; subst; cbn [p_conn p_bag].
  - destruct (N.eq_dec c c0) as [->|Hne]; [rewrite C in H; discriminate|]. rewrite !upd_ne by exact Hne. auto.
  - destruct (N.eq_dec c c0) as [->|Hne]; [rewrite C in H; discriminate|]. rewrite !upd_ne by exact Hne. split; [exact C|]. split; [exact B|].
    rewrite owing_queue; [exact O|]. rewrite (event_conn _ _ _ H0). congruence.
  - destruct (N.eq_dec c c0) as [->|Hne]; [rewrite C in H; discriminate|]. rewrite !upd_ne by exact Hne. split; [exact C|]. split; [exact B|].
    rewrite owing_queue; [exact O|]. rewrite (event_conn _ _ _ H1). congruence.
  - destruct (N.eq_dec c c0) as [->|Hne]; [contradiction|]. rewrite !upd_ne by exact Hne. auto.
  - destruct (N.eq_dec c c0) as [->|Hne]; [rewrite C in H; discriminate|]. rewrite !upd_ne by exact Hne. auto.
  - destruct (N.eq_dec c c0) as [->|Hne]; [rewrite C in H; discriminate|]. rewrite !upd_ne by exact Hne. auto.
  - split; [exact C|]. split; [exact B|]. destruct (deliver_inv _ _ _ _ H2) as (_ & Em & _). rewrite owing_split in *. cbn [p_queue p_sink p_todo]. rewrite H, H0 in O. rewrite Em, map_app, count_occ_app. cbn [map snd count_occ acks flat_map] in *. destruct (odec (r_conn e) (Some c)); lia.
  - split; [exact C|]. split; [exact B|].
    assert (G : q_messages k = [] /\ Permutation (acks calls) (somes (map snd (q_messages (p_sink s))))).
    { unfold k_flush in H0. destruct (k_loop ans rounds (q_messages (p_sink s)) (q_next (p_sink s)) []) as [[[next' c1] lost']|] eqn:El; [|discriminate]. injection H0 as <- <-.
      destruct (loop_spec ans _ _ _ _ _ _ _ El) as (_ & _ & _ & _ & _ & _ & M7 & _). destruct (ack_calls lost') as (_ & K2 & _). rewrite acks_app, K2.
      cbn [somes flat_map app] in M7. split; [reflexivity|]. apply Permutation_sym. exact M7. }
    destruct G as (G1 & G4). rewrite owing_split in *. cbn [p_queue p_sink p_todo]. rewrite G1. cbn [map count_occ]. rewrite (count_perm _ _ (Permutation_map Some G4)), count_somes. lia.
  - rewrite owing_split in *. cbn [p_queue p_sink p_todo]. rewrite H in O. cbn [acks flat_map app map count_occ] in O. fold (acks todo) in O.
    destruct (odec (Some c0) (Some c)) as [Ec|Ec]; [lia|]. split; [exact C|]. split; [|lia]. destruct (p_bag s c0); [|exact B]. rewrite upd_ne by congruence. exact B.
  - split; [exact C|]. split; [exact B|]. rewrite owing_split in *. cbn [p_queue p_sink p_todo]. rewrite H in O. destruct k; try exact O. destruct (H0 c0 Logic.eq_refl).
Qed.
Lemma dropped_stuck tr s c i : pruns tr s -> honest_client ans (given tr ++ sends (p_todo s)) -> (forall i, asks c i <> Some false) -> In (PSend c i false) tr -> stuck s c i.
Proof.
  intros R. induction R as [|tr s l s' R IH Hs]; intros Hh A Hi; [destruct Hi|].
  assert (Hh' : honest_client ans (given tr ++ sends (p_todo s))).
  { rewrite given_app, <- app_assoc in Hh. clear -Hh Hs. inversion Hs; subst; cbn [p_todo given flat_map app] in Hh; rewrite ?app_nil_r in *.
    all: try exact Hh.
    all: try (rewrite H; cbn [sends flat_map]; rewrite app_nil_r; apply (honest_prefix _ _ _ Hh)).
    - rewrite H. cbn [sends flat_map app] in *. exact Hh.
    - rewrite H. destruct k; cbn [sends flat_map app] in *; exact Hh. }
  apply in_app_or in Hi as [Hi|[->|[]]]; [eapply stuck_step; [apply IH; assumption|exact Hs]|].
  destruct (runs_known _ _ R Hh') as [_ K]. specialize (K c A). destruct K as [_ _ _ Kp].
  inversion Hs; subst.
  - match goal with E : p_conn s c = _ |- _ => rewrite E in Kp end. cbn [snd] in Kp. destruct Kp as [O B]. split; [cbn [p_conn]; apply upd_eq|]. split; [exact B|exact O].
  - match goal with E : asks c i = Some false |- _ => destruct (A _ E) end.
Qed.
Lemma answered_passed tr s : pruns tr s -> forall c i, In (PAnswer c i) tr -> i < fst (p_conn s c).
Proof.
  induction 1 as [|tr s l s' R IH Hs]; intros c i H; [destruct H|]. apply in_app_or in H as [H|[->|[]]].
  - specialize (IH c i H). inversion Hs; subst; cbn [p_conn]; try exact IH;
      match goal with E : p_conn s ?x = _ |- _ => destruct (N.eq_dec c x) as [->|Hne]; [rewrite upd_eq; cbn [fst]; rewrite E in IH; cbn [fst] in IH; lia|rewrite upd_ne by exact Hne; exact IH] end.
  - inversion Hs; subst. cbn [p_conn]. rewrite upd_eq. cbn. lia.
Qed.
End Pub.
