(** * The kafka sink: properties C35 to C37, C62 and C75. *)
From Verif Require Import Base BaseFacts TelemetryModel AvroModel AvroProofs KafkaModel KafkaSpec KafkaProofs.
From Coq Require Import Permutation.
Open Scope list_scope. Open Scope nat_scope.

(** the attempts of a flush: the messages in flight, then the messages sent during the flush *)
Definition attempts (k : kafka) (calls : list kcall) : list nat :=
  map fst (q_messages k) ++ seq (q_next k) (List.length (sends calls)).

Section Reachable.
Variable ans : nat -> kanswer.
Variable utf8_ok : bytes -> bool.
(** states and logs of calls reached from a new sink *)
Definition reached (max : nat) (ops : list kop) (k : kafka) (calls : list kcall) : Prop :=
  k_run ans utf8_ok ops (kafka_init max) = Some (k, calls).
End Reachable.

Lemma reached_ok ans u max ops k calls : reached ans u max ops k calls -> k_ok (sends calls) k /\ caused ans (delivered ops) (sends calls).
Proof.
  intros H. apply (run_log ans u ops (kafka_init max) k calls [] [] H).
  - split; [reflexivity|constructor].
  - intros j r Hj. destruct j; discriminate.
Qed.

(** ** C35 *)
(** A flush leaves nothing in flight, answers every attempt exactly once in the counters, sends again exactly the
    attempts with a retryable answer whose message came back complete, and acknowledges every message once. *)
Theorem C35_flush_resolves ans n k k' calls : k_flush ans n k = Some (k', calls) ->
  q_messages k' = [] /\ q_bytes k' = 0 /\ q_next k' = q_next k + List.length (sends calls) /\
  published calls = count is_ok ans (attempts k calls) /\
  failed calls = count is_fatal ans (attempts k calls) /\
  retried calls = count is_retry ans (attempts k calls) /\
  retry_failed calls = count incomplete ans (attempts k calls) /\
  N.of_nat (List.length (sends calls)) = (retried calls - retry_failed calls)%N /\
  N.of_nat (List.length (q_messages k)) = (published calls + failed calls + retry_failed calls)%N /\
  Permutation (acks calls) (somes (map snd (q_messages k))).
Proof.
  unfold k_flush. intros E. destruct (k_loop ans n (q_messages k) (q_next k) []) as [[[next' c1] lost']|] eqn:El; [|discriminate]. injection E as <- <-.
  destruct (loop_spec _ _ _ _ _ _ _ _ El) as (L1 & L2 & L3 & L4 & L5 & L6 & L7 & _). destruct (ack_calls lost') as (K1 & K2 & K3 & K4 & K5 & K6).
  assert (Es : sends (c1 ++ flat_map k_ack lost') = sends c1) by (rewrite sends_app, K1, app_nil_r; reflexivity).
  assert (Ea : attempts k (c1 ++ flat_map k_ack lost') = map fst (q_messages k ++ numbered (q_next k) (sends c1)))
    by (unfold attempts; rewrite Es, map_app, numbered_fst; reflexivity).
  rewrite Ea, Es, published_app, failed_app, retried_app, retry_failed_app, acks_app, K2, K3, K4, K5, K6, !N.add_0_r.
  cbn [q_messages q_bytes q_next].
  set (att := q_messages k ++ numbered (q_next k) (sends c1)) in *.
  assert (Hs : forall l, (N.of_nat (List.length (flat_map (again ans) l)) + count incomplete ans (map fst l) = count is_retry ans (map fst l))%N).
  { induction l as [|[s c] l IHl]; [reflexivity|]. cbn [map fst flat_map]. rewrite !count_cons, app_length. unfold again at 1. cbn [fst snd].
    destruct (ans s) as [|e m|m|]; cbn [is_retry incomplete List.length]; try lia.
    destruct (retryable e); cbn [andb List.length]; [|lia]. destruct (o_payload m), (o_key m); cbn [negb List.length]; lia. }
  assert (Hp : forall l : list nat, N.of_nat (List.length l) = (count is_ok ans l + count is_fatal ans l + count is_retry ans l)%N).
  { induction l as [|s l IHl]; [reflexivity|]. rewrite !count_cons. cbn [List.length]. unfold is_fatal in *.
    destruct (ans s) as [|e m|m|]; cbn [is_ok is_retry negb andb] in *; try lia. destruct (retryable e); cbn [negb]; lia. }
  assert (Hsa : (N.of_nat (List.length (sends c1)) + retry_failed c1 = retried c1)%N) by (rewrite L5, L6, L2; fold att; apply Hs).
  split; [reflexivity|]. split; [reflexivity|]. split; [exact L1|]. split; [exact L3|]. split; [exact L4|]. split; [exact L5|]. split; [exact L6|].
  split; [lia|]. split.
  - specialize (Hp (map fst att)). rewrite <- L3, <- L4, <- L5 in Hp. rewrite map_length in Hp. unfold att in Hp. rewrite app_length, numbered_length in Hp. lia.
  - cbn in L7. rewrite L7. reflexivity.
Qed.

(** Over every history of a sink: what is sent is a delivered event, or a message sent before whose answer was
    retryable; with a client that hands back what it was given the payload, key, metadata and connection are kept. *)
Theorem C35_resend_same_message ans utf8_ok max ops k calls :
  reached ans utf8_ok max ops k calls -> honest_client ans (sends calls) ->
  Forall (fun r => meta_wf (r_metadata r)) (delivered ops) ->
  forall j r, nth_error (sends calls) j = Some r ->
    (exists e, In e (delivered ops) /\ record_of e r) \/
    (exists i r0, i < j /\ nth_error (sends calls) i = Some r0 /\ is_retry (ans i) = true /\ same_message r0 r).
Proof.
  intros Hr Hh Hw. destruct (reached_ok _ _ _ _ _ _ Hr) as [_ Hc].
  assert (W : forall j r, nth_error (sends calls) j = Some r -> meta_wf (k_meta r)).
  { intros j. induction j as [j IH] using lt_wf_ind. intros r Hj. destruct (Hc j r Hj) as [H|(i & r0 & H1 & H2 & H3)].
    - apply in_map_iff in H as (e & <- & He). rewrite Forall_forall in Hw. apply (Hw e He).
    - apply (again_same ans r0 r i (Hh i r0 H2) (IH i H1 r0 H2) H3). }
  intros j r Hj. destruct (Hc j r Hj) as [H|(i & r0 & H1 & H2 & H3)].
  - left. apply in_map_iff in H as (e & <- & He). exists e. split; [assumption|]. unfold record_of. cbn. auto.
  - right. exists i, r0. destruct (again_same ans r0 r i (Hh i r0 H2) (W i r0 H2) H3) as (G1 & _ & G3). auto.
Qed.

(** no attempt is sent again twice: the sends of a flush are, in order, the answers of the attempts *)
Theorem C35_resent_once ans n k k' calls : k_flush ans n k = Some (k', calls) ->
  map k_payload (sends calls) =
    flat_map (fun s => match ans s with
                       | KProduction e m => if retryable e then match o_payload m, o_key m with Some p, Some _ => [p] | _, _ => [] end else []
                       | _ => [] end) (attempts k calls).
Proof.
  unfold k_flush. intros E. destruct (k_loop ans n (q_messages k) (q_next k) []) as [[[next' c1] lost']|] eqn:El; [|discriminate]. injection E as <- <-.
  destruct (loop_spec _ _ _ _ _ _ _ _ El) as (_ & L2 & _). destruct (ack_calls lost') as (K1 & _).
  unfold attempts. rewrite sends_app, K1, app_nil_r. cbv zeta in L2. rewrite L2 at 1. rewrite <- (numbered_fst (q_next k) (sends c1)), <- map_app.
  generalize (q_messages k ++ numbered (q_next k) (sends c1)) as l. induction l as [|[s c] l IHl]; [reflexivity|].
  cbn [map flat_map fst]. rewrite map_app, IHl. f_equal. unfold again. cbn [fst snd]. destruct (ans s) as [|e m|m|]; try reflexivity.
  destruct (retryable e); [|reflexivity]. destruct (o_payload m), (o_key m); reflexivity.
Qed.

(** which errors: of a message whose production failed with a code, and which was handed back whole, the payload is sent
    again, first, if the code is one of a transient error; otherwise nothing is sent *)
Theorem C35_which_errors ans n k k' calls s c rest e m p ky : k_flush ans n k = Some (k', calls) ->
  q_messages k = (s, c) :: rest -> ans s = KProduction e m -> o_payload m = Some p -> o_key m = Some ky ->
  (In e transient -> exists l, map k_payload (sends calls) = p :: l) /\
  (~ In e transient -> rest = [] -> sends calls = []).
Proof.
  intros Hf Hq Ha Hp Hk. pose proof (C35_resent_once _ _ _ _ _ Hf) as H. unfold attempts in H. rewrite Hq in H. cbn [map app flat_map fst] in H. rewrite Ha, Hp, Hk in H. split.
  - intros Hin. assert (R : retryable e = true) by (cbn in Hin; intuition (subst; reflexivity)). rewrite R in H. rewrite H. eexists. reflexivity.
  - intros Hout ->. assert (R : retryable e = false) by (destruct e; try (exfalso; apply Hout; cbn; auto 20; fail); reflexivity).
    unfold k_flush in Hf. rewrite Hq in Hf. destruct n as [|n]; [discriminate|]. cbn in Hf. rewrite Ha in Hf. cbn in Hf. rewrite R in Hf. cbn in Hf.
    destruct n; cbn in Hf; injection Hf as <- <-; destruct c; reflexivity.
Qed.

(** a flush finishes when the broker stops answering with retryable errors *)
Theorem C35_flush_finishes ans k : (exists B, forall s, B <= s -> is_retry (ans s) = false) ->
  exists n k' calls, k_flush ans n k = Some (k', calls).
Proof.
  intros [B HB]. unfold k_flush. pose proof (loop_finishes ans B HB B (q_messages k) (q_next k) [] ltac:(lia)) as H.
  exists (S (S B)). destruct (k_loop ans (S (S B)) (q_messages k) (q_next k) []) as [[[? ?] ?]|]; [eauto|contradiction].
Qed.

(** ** C36 *)
Definition xraw (c : option N) (b : bytes) : raw := mkRaw 7%N EncRaw b (Some [([104]%N, [105]%N)]) c.
Definition xfatal : nat -> kanswer := fun _ => KProduction (OtherCode 1) (mkOwned (Some [1]%N) (Some [55]%N) (Some [])).

(** The full claim is false: the source of a message the broker rejected for good receives its acknowledgement. *)
Theorem C36_refuted : exists ans utf8_ok ops k calls, reached ans utf8_ok 100 ops k calls /\
  published calls = 0%N /\ failed calls = 1%N /\ acks calls = [5%N].
Proof.
  exists xfatal, (fun _ => true), [KDeliver (xraw (Some 5%N) [1]%N); KFlush 3].
  eexists. eexists. split; [vm_compute; reflexivity|]. cbn. auto.
Qed.

(** What holds: if every answer is a confirmation or a retryable error with the complete message, every message of
    the flush is published, and the acknowledgements are those of the published messages. *)
Theorem C36_partial ans n k k' calls : k_flush ans n k = Some (k', calls) ->
  (forall s, is_fatal (ans s) = false /\ incomplete (ans s) = false) ->
  failed calls = 0%N /\ retry_failed calls = 0%N /\
  published calls = N.of_nat (List.length (q_messages k)) /\ Permutation (acks calls) (somes (map snd (q_messages k))).
Proof.
  intros E H. destruct (C35_flush_resolves _ _ _ _ _ E) as (_ & _ & _ & _ & P2 & _ & P4 & _ & P6 & P7).
  assert (Z : forall f l, (forall s, f (ans s) = false) -> count f ans l = 0%N).
  { intros f l Hf. induction l as [|s l IHl]; [reflexivity|]. rewrite count_cons, Hf, IHl. reflexivity. }
  rewrite (Z is_fatal) in P2 by apply H. rewrite (Z incomplete) in P4 by apply H.
  split; [assumption|]. split; [assumption|]. split; [lia|assumption].
Qed.
(** In every case no source is acknowledged more often than it has messages in flight, and not before the flush. *)
Theorem C36_never_at_delivery ans utf8_ok ops max k calls : reached ans utf8_ok max ops k calls ->
  forallb (fun o => match o with KDeliver _ => true | _ => false end) ops = true -> acks calls = [].
Proof.
  unfold reached. generalize (kafka_init max) as k0. revert k calls. induction ops as [|op ops IH]; intros k calls k0 E Hd.
  - cbn in E. injection E as <- <-. reflexivity.
  - cbn in Hd. apply andb_prop in Hd as [Ho Hd]. destruct op as [r|]; [|discriminate]. cbn [k_run] in E.
    destruct (k_deliver utf8_ok k0 r) as [[k1 c1]|] eqn:E1; [|discriminate]. destruct (k_run ans utf8_ok ops k1) as [[k2 c2]|] eqn:E2; [|discriminate].
    injection E as <- <-. unfold k_deliver in E1. destruct (forallb _ _) in E1; [|discriminate]. injection E1 as <- <-.
    cbn. apply (IH _ _ _ E2 Hd).
Qed.

(** ** C37 *)
(** At every point of every history the valve is closed exactly when the payload bytes delivered since the last
    flush reach the configured maximum. *)
Theorem C37_valve ans utf8_ok max ops k calls : reached ans utf8_ok max ops k calls ->
  (k_valve_open k = false <-> max <= pending_bytes 0 ops) /\
  (forall n k' calls', k_flush ans n k = Some (k', calls') -> k_valve_open k' = (0 <? max)).
Proof.
  intros H. destruct (run_state ans utf8_ok ops _ _ _ H) as [H1 H2]. cbn in H1, H2. split.
  - unfold k_valve_open. rewrite H1, H2. rewrite Nat.ltb_ge. reflexivity.
  - intros n k' calls' E. destruct (C35_flush_resolves _ _ _ _ _ E) as (_ & Hb & _).
    unfold k_flush in E. destruct (k_loop _ _ _ _ _) as [[[? ?] ?]|]; [|discriminate]. injection E as <- <-. unfold k_valve_open. cbn. rewrite H2. reflexivity.
Qed.

(** ** C62 *)
(** A raw event whose metadata keys are text is always accepted; one with a key that is not text stops the sink. *)
Theorem C62_refuted : exists utf8_ok k r, k_deliver utf8_ok k r = None.
Proof. exists (fun b => beqb b [104]%N), (kafka_init 100), (mkRaw 1%N EncRaw [1]%N (Some [([255]%N, [1]%N)]) None). reflexivity. Qed.
Theorem C62_partial utf8_ok k r : k_deliver utf8_ok k r <> None <-> Forall (fun kv => utf8_ok (fst kv) = true) (meta_of (r_metadata r)).
Proof.
  rewrite Forall_forall. unfold k_deliver.
  set (b := forallb _ _). assert (E : b = true <-> forall kv, In kv (meta_of (r_metadata r)) -> utf8_ok (fst kv) = true).
  { unfold b. rewrite forallb_forall. destruct (r_metadata r) as [m|]; cbn; [|tauto]. split.
    - intros H kv Hin. apply H, in_map, Hin.
    - intros H x Hin. apply in_map_iff in Hin as (kv & <- & Hin). auto. }
  destruct b.
  - split; [intros _; apply E; reflexivity|intros _ H; discriminate H].
  - split; [intros H; contradiction H; reflexivity|]. intros H. apply E in H. discriminate.
Qed.

(** ** C75 *)
Lemma is_digit_hex d : (d < 16)%N -> is_digit (hex_digit d) d.
Proof.
  intros H. unfold is_digit, hex_digit.
  assert (E : In d (map N.of_nat (seq 0 16))) by (apply in_map_iff; exists (N.to_nat d); rewrite N2Nat.id; split; [reflexivity|apply in_seq; lia]).
  cbn in E. repeat (destruct E as [<-|E]; [reflexivity|]). contradiction.
Qed.
Lemma hex_loop_acc fuel n acc : hex_loop fuel n acc = hex_loop fuel n [] ++ acc.
Proof.
  revert n acc. induction fuel as [|f IH]; intros n acc; cbn; [reflexivity|].
  destruct (n / 16 =? 0)%N; [reflexivity|]. rewrite (IH _ (_ :: acc)), (IH _ [_]), <- app_assoc. reflexivity.
Qed.
Lemma hex_loop_reads fuel n : (n < 2 ^ N.of_nat fuel)%N -> 0 < fuel ->
  reads (hex_loop fuel n []) n /\ (hd 0%N (hex_loop fuel n []) = 48%N -> n = 0%N).
Proof.
  revert n. induction fuel as [|f IH]; intros n Hn Hf; [lia|]. cbn.
  pose proof (N.div_mod n 16 ltac:(discriminate)) as E. pose proof (N.mod_lt n 16 ltac:(discriminate)) as L.
  destruct (n / 16 =? 0)%N eqn:Z.
  - apply N.eqb_eq in Z. rewrite Z in E. split.
    + rewrite E at 2. constructor. rewrite N.mul_0_r. apply is_digit_hex, L.
    + cbn. unfold hex_digit. destruct (n mod 16 <? 10)%N eqn:B; lia.
  - apply N.eqb_neq in Z. rewrite hex_loop_acc.
    assert (Hn' : (n / 16 < 2 ^ N.of_nat f)%N).
    { rewrite Nat2N.inj_succ, N.pow_succ_r' in Hn. apply N.div_lt_upper_bound; lia. }
    assert (Hf' : 0 < f). { destruct f; [cbn in Hn'; lia|lia]. }
    destruct (IH _ Hn' Hf') as [R H]. split.
    + rewrite E at 3. constructor; [exact R|apply is_digit_hex, L].
    + intros Hd. destruct (hex_loop f (n / 16) []) as [|c l] eqn:El; [inversion R; destruct key; discriminate|]. cbn in Hd, H. specialize (H Hd). congruence.
Qed.
Lemma is_digit_inj c d e : is_digit c d -> is_digit c e -> d = e.
Proof.
  unfold is_digit. intros A B. assert (ND : NoDup hex_chars) by (unfold hex_chars; repeat constructor; cbn; intuition discriminate).
  rewrite NoDup_nth_error in ND. apply N2Nat.inj. apply ND; [apply nth_error_Some; rewrite A; discriminate|congruence].
Qed.
Lemma reads_fun key n : reads key n -> forall m, reads key m -> n = m.
Proof.
  induction 1 as [c d D|key n c d R IH D]; intros m Hm.
  - inversion Hm as [c' d' D' E|key' n' c' d' R' D' E]; subst; [eapply is_digit_inj; eassumption|].
    destruct key'; [inversion R'; destruct key; discriminate|destruct key'; discriminate].
  - inversion Hm as [c' d' D' E|key' n' c' d' R' D' E]; subst.
    + destruct key; [inversion R; destruct key; discriminate|destruct key; discriminate].
    + apply app_inj_tail in E as [-> ->]. rewrite (IH _ R'), (is_digit_inj _ _ _ D D'). reflexivity.
Qed.
(** Every accepted raw event is handed to the client at once as one message of its own bytes, metadata and
    connection; its key is the ordering number in upper case hexadecimal, without leading zeros. *)
Theorem C75_key utf8_ok k r k' calls : k_deliver utf8_ok k r = Some (k', calls) ->
  exists key, calls = [CSend (mkKrec (r_bytes r) key (r_metadata r) (r_conn r))] /\
    reads key (r_order_by r) /\ (hd 0%N key = 48%N -> r_order_by r = 0%N).
Proof.
  unfold k_deliver. destruct (forallb _ _); [|discriminate]. intros [= <- <-]. eexists. split; [reflexivity|].
  apply hex_loop_reads; [|lia]. rewrite Nat2N.inj_succ, N2Nat.id.
  destruct (N.eq_dec (r_order_by r) 0) as [->|Z]; [reflexivity|]. apply N.log2_spec. lia.
Qed.
(** Two events share a key, and so a partition, exactly when they share the ordering number. *)
Theorem C75_same_key u1 u2 k1 k2 r1 r2 k1' k2' m1 m2 :
  k_deliver u1 k1 r1 = Some (k1', [CSend m1]) -> k_deliver u2 k2 r2 = Some (k2', [CSend m2]) ->
  (k_key m1 = k_key m2 <-> r_order_by r1 = r_order_by r2).
Proof.
  intros A B. destruct (C75_key _ _ _ _ _ A) as (key1 & E1 & R1 & _), (C75_key _ _ _ _ _ B) as (key2 & E2 & R2 & _).
  injection E1 as ->. injection E2 as ->. cbn. split.
  - intros <-. apply (reads_fun _ _ R1 _ R2).
  - intros E. unfold k_deliver in A, B. destruct (forallb _ _); [|discriminate]. destruct (forallb _ _); [|discriminate].
    injection A as _ A. injection B as _ B. rewrite E in A. congruence.
Qed.
Example C75_example : k_deliver (fun _ => true) (kafka_init 10) (mkRaw 48879%N EncRaw [1]%N None None) =
  Some (mkKafka [(0, None)] 1 10 1, [CSend (mkKrec [1]%N [66; 69; 69; 70]%N None None)]).
Proof. reflexivity. Qed.

(** ** Examples *)
(** three messages: confirmed, retried then confirmed, failed for good *)
Definition xans (s : nat) : kanswer :=
  match s with
  | 0 => KOk
  | 1 => KProduction RequestTimedOut (mkOwned (Some [2; 2]%N) (Some [55]%N) (Some [([104]%N, [105]%N)]))
  | 2 => KCanceled
  | _ => KOk
  end.
Definition xops := [KDeliver (xraw (Some 10%N) [1]%N); KDeliver (xraw (Some 11%N) [2; 2]%N); KDeliver (xraw (Some 12%N) [3]%N); KFlush 4].
Example C35_example : exists k, reached xans (fun _ => true) 4 xops k
  [CSend (mkKrec [1]%N [55]%N (Some [([104]%N, [105]%N)]) (Some 10%N)); CSend (mkKrec [2; 2]%N [55]%N (Some [([104]%N, [105]%N)]) (Some 11%N));
   CSend (mkKrec [3]%N [55]%N (Some [([104]%N, [105]%N)]) (Some 12%N));
   CCount 1 1 1; CAck 10%N; CAck 12%N; CSend (mkKrec [2; 2]%N [55]%N (Some [([104]%N, [105]%N)]) (Some 11%N)); CCount 1 0 0; CAck 11%N].
Proof. eexists. vm_compute. reflexivity. Qed.
(** two flushes of one message each: the broker was busy, the message is too large *)
Example C35_example_which : exists k k1 k2,
  k_flush (fun s => if s =? 0 then KProduction NotEnoughReplicas (mkOwned (Some [2]%N) (Some [55]%N) (Some [])) else KOk) 3 k =
    Some (k1, [CCount 0 0 1; CSend (mkKrec [2]%N [55]%N (Some []) (Some 4%N)); CCount 1 0 0; CAck 4%N]) /\
  k_flush (fun _ => KProduction (OtherCode 10) (mkOwned (Some [2]%N) (Some [55]%N) (Some []))) 3 k = Some (k2, [CCount 0 1 0; CAck 4%N]) /\
  q_messages k = [(0, Some 4%N)].
Proof. exists (mkKafka [(0, Some 4%N)] 1 100 1). do 2 eexists. split; [vm_compute; reflexivity|]. split; [vm_compute; reflexivity|reflexivity]. Qed.
Example C35_example_honest : honest_client xans
  [mkKrec [1]%N [55]%N (Some [([104]%N, [105]%N)]) (Some 10%N); mkKrec [2; 2]%N [55]%N (Some [([104]%N, [105]%N)]) (Some 11%N);
   mkKrec [3]%N [55]%N (Some [([104]%N, [105]%N)]) (Some 12%N); mkKrec [2; 2]%N [55]%N (Some [([104]%N, [105]%N)]) (Some 11%N)].
Proof. intros [|[|[|[|[|s]]]]] r H; cbn in H; try discriminate; injection H as <-; cbn; unfold gives_back; auto. Qed.
Example C37_example : pending_bytes 0 (firstn 3 xops) = 4 /\ pending_bytes 0 (firstn 2 xops) = 3 /\ pending_bytes 0 xops = 0.
Proof. repeat split; reflexivity. Qed.

Print Assumptions C35_flush_resolves.
Print Assumptions C35_resend_same_message.
Print Assumptions C35_resent_once.
Print Assumptions C35_which_errors.
Print Assumptions C35_flush_finishes.
Print Assumptions C36_refuted.
Print Assumptions C36_partial.
Print Assumptions C36_never_at_delivery.
Print Assumptions C37_valve.
Print Assumptions C62_refuted.
Print Assumptions C62_partial.
Print Assumptions C75_key.
Print Assumptions C75_same_key.
