(** * Properties C33, C34: the avro source. *)
From Verif Require Import Base BaseFacts TelemetryModel AvroModel AvroSpec AvroProofs.
Open Scope list_scope. Open Scope nat_scope.

(** ** C33: decoding inverts the wire format *)
Theorem C33_round_trip : forall (container_ok : list N -> bool) h kvs blob,
  head_ok h kvs -> container_ok blob = true ->
  exists m, payload_from container_ok (enc_payload h kvs blob) = AValid h m blob /\
    (m = None <-> kvs = []) /\
    (forall m', m = Some m' -> (forall k, last_value k kvs (alookup beqb k m')) /\ (NoDup (map fst kvs) -> m' = kvs)).
Proof.
  intros ok h kvs blob (Hh & Hl & Hkv & Hv) Hok. unfold payload_from, enc_payload, enc_head. rewrite <- !app_assoc.
  rewrite header_enc by assumption. destruct (h_version h <? 2)%N eqn:Ev.
  - apply N.ltb_lt in Ev. specialize (Hv Ev). subst kvs. cbn [app]. rewrite Hok. exists None.
    split; [reflexivity|]. split; [tauto|]. intros m' [=].
  - rewrite <- app_assoc. rewrite take_num_enc by (cbn; lia). destruct (N.ltb_spec (N.of_nat (List.length kvs)) 1) as [E1|E1].
    + destruct kvs; [|cbn [List.length] in E1; lia]. cbn [map List.concat app]. rewrite Hok. exists None.
      split; [reflexivity|]. split; [tauto|]. intros m' [=].
    + rewrite Nat2N.id, kv_enc by assumption. rewrite Hok. exists (Some (collect kvs [])). split; [reflexivity|].
      split; [split; [discriminate|intros ->; cbn in E1; lia]|]. intros m' [= <-]. split; [intros k; apply collect_lookup|].
      intros Hnd. apply collect_distinct. assumption.
Qed.
(** bodies that are not avro containers are rejected as invalid *)
Theorem C33_bad_body_rejected : forall (container_ok : list N -> bool) h kvs blob,
  head_ok h kvs -> container_ok blob = false ->
  payload_from container_ok (enc_payload h kvs blob) = AInvalid.
Proof.
  intros ok h kvs blob (Hh & Hl & Hkv & Hv) Hok. unfold payload_from, enc_payload, enc_head. rewrite <- !app_assoc.
  rewrite header_enc by assumption. destruct (h_version h <? 2)%N eqn:Ev.
  - cbn [app]. rewrite Hok. reflexivity.
  - rewrite <- app_assoc. rewrite take_num_enc by (cbn; lia). destruct (N.ltb_spec (N.of_nat (List.length kvs)) 1) as [E1|E1].
    + destruct kvs; [|cbn [List.length] in E1; lia]. cbn [map List.concat app]. rewrite Hok. reflexivity.
    + rewrite Nat2N.id, kv_enc by assumption. rewrite Hok. reflexivity.
Qed.
(** the last clause is false: a payload cut inside its header or metadata is not
    rejected as invalid, the handler panics *)
Theorem C33_truncated_refuted : exists (container_ok : list N -> bool) h kvs blob p q,
  head_ok h kvs /\ p ++ q = enc_payload h kvs blob /\ payload_from container_ok p = APanic.
Proof.
  exists (fun _ => true), (mkHeader 2 1 7 9), [([1], [2; 3])]%N, [5%N], [0; 0; 0; 2]%N,
    [0;0;0;1; 0;0;0;0;0;0;0;7; 0;0;0;0;0;0;0;9; 1; 1;1; 0;2;2;3; 5]%N.
  split; [|split; reflexivity]. split; [cbn; lia|]. split; [cbn; lia|]. split; [constructor; [cbn; lia|constructor]|]. cbn. lia.
Qed.
(** for every cut: it is a panic, so nothing of a payload cut there is sent on *)
Theorem C33_truncated_partial : forall (container_ok : list N -> bool) h kvs p q conn,
  head_ok h kvs -> p ++ q = enc_head h kvs -> q <> [] ->
  payload_from container_ok p = APanic /\ raw_of container_ok conn p = None.
Proof.
  intros ok h kvs p q conn Hh E Hq. pose proof (payload_trunc ok h kvs p q Hh E Hq) as H.
  split; [assumption|]. unfold raw_of. rewrite H. reflexivity.
Qed.
Example C33_ex :
  head_ok (mkHeader 2 1 7 9) [([1], [2; 3]); ([4], [])]%N /\
  payload_from (fun _ => true) (enc_payload (mkHeader 2 1 7 9) [([1], [2; 3]); ([4], [])]%N [5; 6]%N) =
    AValid (mkHeader 2 1 7 9) (Some [([1], [2; 3]); ([4], [])]%N) [5; 6]%N /\
  payload_from (fun _ => true) (enc_payload (mkHeader 1 0 7 9) [] [5; 6]%N) = AValid (mkHeader 1 0 7 9) None [5; 6]%N /\
  h_sync (mkHeader 2 1 7 9) = true /\ h_sync (mkHeader 2 2 7 9) = false.
Proof.
  split; [|repeat split]. split; [cbn; lia|]. split; [cbn; lia|]. split; [repeat (constructor; [cbn; lia|]); constructor|]. cbn. lia.
Qed.
Print Assumptions C33_round_trip.
Print Assumptions C33_bad_body_rejected.
Print Assumptions C33_truncated_refuted.
Print Assumptions C33_truncated_partial.

(** ** C34: acknowledgement.  The first claim is false: events carry only the
    connection, so resolving an earlier asynchronous event of the connection, or
    another copy of an earlier event, releases the handler of a later one. *)
(** executions step by step, keeping only what concerns one connection *)
Definition at_ (prog : N -> nat -> option bool) fan tr (c : N) (k : nat * phase) (b : option nat) (f : list (N * nat)) : Prop :=
  exists s, aruns prog fan tr s /\ s_conn s c = k /\ s_bag s c = b /\ s_flight s = f.
Section Script.
Variable prog : N -> nat -> option bool.
Variable fan : nat.
Variable c : N.
Notation at' := (at_ prog fan).
Lemma do_prepare tr i b f : at' tr c (i, PReady) b f -> prog c i = Some true -> at' (tr ++ [LPrepare c i]) c (i, PPrepared) (Some 0) f.
Proof. intros (s & R & H1 & H2 & H3) Hp. eexists. split; [eapply runs_step; [exact R|apply a_prepare; assumption]|]. cbn. rewrite !upd_eq. auto. Qed.
Lemma do_send_sync tr i b f : at' tr c (i, PPrepared) b f -> at' (tr ++ [LSend c i]) c (i, PSent) b (f ++ copies fan c i).
Proof. intros (s & R & H1 & H2 & H3). eexists. split; [eapply runs_step; [exact R|apply a_send_sync; assumption]|]. cbn. rewrite !upd_eq, H3. auto. Qed.
Lemma do_send_async tr i b f : at' tr c (i, PReady) b f -> prog c i = Some false -> at' (tr ++ [LSend c i]) c (S i, PReady) b (f ++ copies fan c i).
Proof. intros (s & R & H1 & H2 & H3) Hp. eexists. split; [eapply runs_step; [exact R|apply a_send_async; assumption]|]. cbn. rewrite !upd_eq, H3. auto. Qed.
Lemma do_wake tr i n f : at' tr c (i, PSent) (Some (S n)) f -> at' (tr ++ [LWake c i]) c (i, PWoken) (Some (S n)) f.
Proof. intros (s & R & H1 & H2 & H3). eexists. split; [eapply runs_step; [exact R|apply a_wake; [assumption|rewrite H2; discriminate]]|]. cbn. rewrite !upd_eq. auto. Qed.
Lemma do_remove tr i b f : at' tr c (i, PWoken) b f -> at' (tr ++ [LRemove c i]) c (i, PRemoved) None f.
Proof. intros (s & R & H1 & H2 & H3). eexists. split; [eapply runs_step; [exact R|apply a_remove; assumption]|]. cbn. rewrite !upd_eq. auto. Qed.
Lemma do_ack tr i b f : at' tr c (i, PRemoved) b f -> at' (tr ++ [LAck c i]) c (S i, PReady) b f.
Proof. intros (s & R & H1 & H2 & H3). eexists. split; [eapply runs_step; [exact R|apply a_ack; assumption]|]. cbn. rewrite !upd_eq. auto. Qed.
Lemma do_resolve tr k n j f1 f2 : at' tr c k (Some n) (f1 ++ (c, j) :: f2) -> at' (tr ++ [LResolve c j]) c k (Some (S n)) (f1 ++ f2).
Proof. intros (s & R & H1 & H2 & H3). eexists. split; [eapply runs_step; [exact R|eapply a_resolve; exact H3]|]. cbn. rewrite H2, !upd_eq. auto. Qed.
Lemma do_init : at' [] c (0, PReady) None [].
Proof. exists a_init. split; [constructor|]. auto. Qed.
End Script.
Definition two_payloads (first_sync : bool) : N -> nat -> option bool :=
  fun c i => if (c =? 1)%N then match i with 0 => Some first_sync | 1 => Some true | _ => None end else None.
Theorem C34_stale_ack_refuted : exists prog fan tr s c i,
  fan = 1 /\ aruns prog fan tr s /\ prog c i = Some true /\ In (LAck c i) tr /\ ~ In (LResolve c i) tr.
Proof.
  assert (R : at_ (two_payloads false) 1 [LSend 1 0; LPrepare 1 1; LSend 1 1; LResolve 1 0; LWake 1 1; LRemove 1 1; LAck 1 1]%N 1%N (2, PReady) None [(1%N, 1)]).
  { pose proof (do_init (two_payloads false) 1 1%N) as R.
    apply do_send_async in R; [|reflexivity]. apply do_prepare in R; [|reflexivity]. apply do_send_sync in R.
    apply (do_resolve _ _ _ _ _ _ 0 [] [(1%N, 1)]) in R. apply do_wake in R. apply do_remove in R. apply do_ack in R. exact R. }
  destruct R as (s & R & _). exists (two_payloads false), 1. eexists. exists s, 1%N, 1. split; [reflexivity|]. split; [exact R|]. split; [reflexivity|].
  split; [cbn; tauto|]. cbn. intros H. repeat (destruct H as [H|H]; [discriminate|]). assumption.
Qed.
(** even when every payload is synchronous, with two forwards *)
Theorem C34_two_forwards_refuted : exists prog fan tr s c i,
  (forall c i, prog c i <> Some false) /\ aruns prog fan tr s /\ In (LAck c i) tr /\ ~ In (LResolve c i) tr.
Proof.
  assert (R : at_ (two_payloads true) 2 [LPrepare 1 0; LSend 1 0; LResolve 1 0; LWake 1 0; LRemove 1 0; LAck 1 0;
     LPrepare 1 1; LSend 1 1; LResolve 1 0; LWake 1 1; LRemove 1 1; LAck 1 1]%N 1%N (2, PReady) None [(1%N, 1); (1%N, 1)]).
  { pose proof (do_init (two_payloads true) 2 1%N) as R.
    apply do_prepare in R; [|reflexivity]. apply do_send_sync in R. apply (do_resolve _ _ _ _ _ _ 0 [] [(1%N, 0)]) in R.
    apply do_wake in R. apply do_remove in R. apply do_ack in R.
    apply do_prepare in R; [|reflexivity]. apply do_send_sync in R. apply (do_resolve _ _ _ _ _ _ 0 [] [(1%N, 1); (1%N, 1)]) in R.
    apply do_wake in R. apply do_remove in R. apply do_ack in R. exact R. }
  destruct R as (s & R & _). exists (two_payloads true), 2. eexists. exists s, 1%N, 1. split.
  { intros c i. unfold two_payloads. destruct (c =? 1)%N; [|discriminate]. destruct i as [|[|i]]; discriminate. }
  split; [exact R|]. split; [cbn; tauto|]. cbn. intros H. repeat (destruct H as [H|H]; [discriminate|]). assumption.
Qed.
(** What holds.  With synchronous payloads only and one forward, an answer is
    written only after the sink resolved that very event. *)
Theorem C34_own_resolution_partial : forall prog fan tr s t1 c i t2,
  (forall c i, prog c i <> Some false) -> fan <= 1 ->
  aruns prog fan tr s -> tr = t1 ++ LAck c i :: t2 -> In (LResolve c i) t1.
Proof.
  intros prog fan tr s t1 c i t2 Hs Hf Hr E. destruct (runs_split prog fan tr s Hr t1 _ t2 E) as (s1 & s2 & Hr1 & Hst).
  pose proof (runs_strict prog fan t1 s1 Hs Hf Hr1 c) as H. inversion Hst; subst.
  match goal with Hc : s_conn _ _ = _ |- _ => rewrite Hc in H end. tauto.
Qed.
(** In general: after a resolution of some event of the connection that happened
    since the payload was prepared. *)
Theorem C34_some_resolution_partial : forall prog fan tr s t1 c i t2,
  aruns prog fan tr s -> tr = t1 ++ LAck c i :: t2 ->
  exists a b j, t1 = a ++ LPrepare c i :: b /\ In (LResolve c j) b.
Proof.
  intros prog fan tr s t1 c i t2 Hr E. destruct (runs_split prog fan tr s Hr t1 _ t2 E) as (s1 & s2 & Hr1 & Hst).
  pose proof (runs_inv prog fan t1 s1 Hr1 c) as H. inversion Hst; subst.
  match goal with Hc : s_conn _ _ = _ |- _ => rewrite Hc in H end. destruct H as (_ & _ & (a & b & Ea & _ & (j & Hj))).
  exists a, b, j. auto.
Qed.
(** An acknowledgement arriving early is not lost: whenever the event of the
    payload being waited for has been resolved, the wait ends. *)
Theorem C34_early_ack_kept : forall prog fan tr s c i,
  aruns prog fan tr s -> s_conn s c = (i, PSent) -> In (LResolve c i) tr ->
  exists s', astep prog fan s (LWake c i) s'.
Proof.
  intros prog fan tr s c i Hr Hc Hin. destruct (runs_kept prog fan tr s Hr c) as [_ H]. eexists. apply a_wake; [assumption|]. eapply H; eauto.
Qed.
(** ... also when it came before the handler started to wait: nothing is in flight
    or resolved before it is sent, and the entry exists from before the send. *)
Theorem C34_entry_before_event : forall prog fan tr s c i,
  aruns prog fan tr s -> s_conn s c = (i, PPrepared) ->
  (exists n, s_bag s c = Some n) /\ ~ In (c, i) (s_flight s) /\ ~ In (LResolve c i) tr.
Proof.
  intros prog fan tr s c i Hr Hc. pose proof (runs_inv prog fan tr s Hr c) as H. rewrite Hc in H. destruct H as (_ & n & Hn & _).
  destruct (runs_kept prog fan tr s Hr c) as [K _]. split; [eauto|].
  assert (G : ~ sent_already s c i).
  { unfold sent_already. rewrite Hc. intros [H|[_ [H|[H|H]]]]; try discriminate. lia. }
  split; intros Hin; apply G, K; auto.
Qed.
(** Asynchronous payloads are never acknowledged, and no payload is acknowledged
    twice. *)
Theorem C34_only_sync_acked : forall prog fan tr s c i,
  aruns prog fan tr s -> In (LAck c i) tr -> prog c i = Some true.
Proof.
  intros prog fan tr s c i Hr Hin. apply in_split in Hin as (t1 & t2 & E).
  destruct (runs_split prog fan tr s Hr t1 _ t2 E) as (s1 & s2 & Hr1 & Hst).
  pose proof (runs_inv prog fan t1 s1 Hr1 c) as H. inversion Hst; subst.
  match goal with Hc : s_conn _ _ = _ |- _ => rewrite Hc in H end. tauto.
Qed.
Theorem C34_acked_once : forall prog fan tr s t1 c i t2,
  aruns prog fan tr s -> tr = t1 ++ LAck c i :: t2 -> ~ In (LAck c i) t1 /\ ~ In (LAck c i) t2.
Proof.
  intros prog fan tr s t1 c i t2 Hr E. pose proof (runs_ack_NoDup prog fan tr s Hr c i) as H. subst tr.
  rewrite map_app, count_occ_app in H. cbn [map] in H. rewrite N.eqb_refl, Nat.eqb_refl in H. cbn [andb] in H.
  rewrite count_occ_cons_eq in H by reflexivity.
  assert (G : forall t, In (LAck c i) t -> count_occ (fun a b : bool => Bool.bool_dec a b)
     (map (fun l => match l with LAck c' i' => andb (c' =? c)%N (i' =? i) | _ => false end) t) true > 0).
  { intros t Ht. apply count_occ_In. apply in_map_iff. exists (LAck c i). rewrite N.eqb_refl, Nat.eqb_refl. auto. }
  split; intros Hin; apply G in Hin; lia.
Qed.
Example C34_ex : exists s, aruns (two_payloads true) 1 [LPrepare 1 0; LSend 1 0; LResolve 1 0]%N s /\ s_conn s 1%N = (0, PSent).
Proof.
  pose proof (do_init (two_payloads true) 1 1%N) as R.
  apply do_prepare in R; [|reflexivity]. apply do_send_sync in R. apply (do_resolve _ _ _ _ _ _ 0 [] []) in R.
  destruct R as (s & R & H & _). exists s. auto.
Qed.
Print Assumptions C34_stale_ack_refuted.
Print Assumptions C34_two_forwards_refuted.
Print Assumptions C34_own_resolution_partial.
Print Assumptions C34_some_resolution_partial.
Print Assumptions C34_early_ack_kept.
Print Assumptions C34_entry_before_event.
Print Assumptions C34_only_sync_acked.
Print Assumptions C34_acked_once.
