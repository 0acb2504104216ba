(** * C135 to C137: what an answer means to an avro client whose payloads go to kafka *)
From Verif Require Import Base TelemetryModel AvroModel AvroSpec KafkaModel KafkaSpec PublishModel PublishSpec PublishProofs.
From Coq Require Import Lia.
Open Scope list_scope. Open Scope nat_scope.

Lemma asks_always ok payloads c : always_asks ok (payloads c) -> forall i, asks ok payloads c i <> Some false.
Proof.
  intros A i. unfold asks. destruct (nth_error (payloads c) i) as [bs|] eqn:E; [|discriminate].
  destruct (payload_from ok bs) as [|h m blob|] eqn:P; try discriminate. rewrite (A bs h m blob); [discriminate|eapply nth_error_In; exact E|exact P].
Qed.

(** ** C135: at the moment a client is answered for a payload, a record of that payload has been given to kafka, and the
    broker's answer to that record was a confirmation or a refusal for good *)
Theorem C135_answered_is_settled : forall container_ok utf8_ok ans payloads max tr s c i,
  pruns container_ok utf8_ok ans payloads max (tr ++ [PAnswer c i]) s -> honest_client ans (given tr ++ sends (p_todo s)) ->
  always_asks container_ok (payloads c) ->
  exists bs n r, nth_error (payloads c) i = Some bs /\ nth_error (given tr) n = Some r /\ carries container_ok c bs r /\
    (is_ok (ans n) = true \/ is_fatal (ans n) = true).
Proof.
  intros ok utf8 ans payloads max tr s c i R Hh A.
  assert (G : exists s0, pruns ok utf8 ans payloads max tr s0 /\ pstep ok utf8 ans payloads s0 (PAnswer c i) s).
  { inversion R as [E|tr0 s0 l s1 R0 S0 E]; [destruct (app_cons_not_nil _ _ _ E)|]. apply app_inj_tail in E as [-> ->]. eauto. }
  destruct G as (s0 & R0 & S0). assert (T : p_todo s0 = p_todo s /\ p_conn s0 c = (i, PRemoved)) by (inversion S0; subst; auto). destruct T as [T C].
  rewrite <- T in Hh. destruct (runs_known _ _ _ _ _ _ _ R0 Hh) as [_ K]. destruct (K c (asks_always _ _ _ A)) as [_ _ _ Kp].
  rewrite C in Kp. cbn [snd fst] in Kp. destruct Kp as [_ (e & n & r & E & N & M & F)].
  destruct (k_rec_carries _ _ _ _ _ _ E M) as (bs & B & Ca). exists bs, n, r. split; [exact B|]. split; [exact N|]. split; [exact Ca|].
  unfold is_fatal. rewrite F. destruct (is_ok (ans n)); auto.
Qed.
(** when the broker refuses nothing for good, kafka has confirmed the payload *)
Theorem C135_answered_is_confirmed : forall container_ok utf8_ok ans payloads max tr s c i,
  pruns container_ok utf8_ok ans payloads max (tr ++ [PAnswer c i]) s -> honest_client ans (given tr ++ sends (p_todo s)) ->
  always_asks container_ok (payloads c) -> (forall n, n < List.length (given tr) -> is_fatal (ans n) = false) ->
  exists bs n r, nth_error (payloads c) i = Some bs /\ nth_error (given tr) n = Some r /\ carries container_ok c bs r /\ ans n = KOk.
Proof.
  intros ok utf8 ans payloads max tr s c i R Hh A F. destruct (C135_answered_is_settled _ _ _ _ _ _ _ _ _ R Hh A) as (bs & n & r & B & N & Ca & D).
  exists bs, n, r. split; [exact B|]. split; [exact N|]. split; [exact Ca|]. rewrite (F n) in D by (apply nth_error_Some; congruence).
  destruct (ans n); cbn in D; try (destruct D; discriminate). reflexivity.
Qed.
(** the condition that every payload of the connection asks is needed: a payload that asks after one that does not is
    answered though nothing of it has left the queue *)
Definition xbytes (control id : N) (v : N) : list N := enc_payload (mkHeader 2 control id 9) [([107], [v])]%N [v]%N.
Definition xpay (c : N) : list (list N) := if (c =? 5)%N then [xbytes 1 7 1; xbytes 1 8 2]%N else if (c =? 6)%N then [xbytes 0 7 1; xbytes 1 8 2]%N else [].
Definition xev (c v : N) : raw := mkRaw 9 EncAvro [v]%N (Some [([107], [v])]%N) (Some c).
Definition xrec (c v : N) : krec := mkKrec [v]%N [57]%N (Some [([107], [v])]%N) (Some c).
Definition xyes : list N -> bool := fun _ => true.
(** for the examples: carry out labels one after another; the record of a delivery and the call of a flush are those of
    the state *)
Section Try.
Variables (ans : nat -> kanswer).
Definition ptry (s : pub) (l : plabel) : option (plabel * pub) :=
  match l with
  | PPrepare c i => match p_conn s c, asks xyes xpay c i with
      | (j, PReady), Some true => if Nat.eqb i j then Some (l, mkPub (upd (p_conn s) c (i, PPrepared)) (upd (p_bag s) c (Some 0)) (p_queue s) (p_sink s) (p_todo s)) else None
      | _, _ => None end
  | PSend c i ok => match p_conn s c, event_of xyes xpay c i, asks xyes xpay c i with
      | (j, PPrepared), Some e, _ => if Nat.eqb i j then Some (l, mkPub (upd (p_conn s) c (i, PSent)) (p_bag s) (if ok then p_queue s ++ [e] else p_queue s) (p_sink s) (p_todo s)) else None
      | (j, PReady), Some e, Some false => if Nat.eqb i j then Some (l, mkPub (upd (p_conn s) c (Datatypes.S i, PReady)) (p_bag s) (if ok then p_queue s ++ [e] else p_queue s) (p_sink s) (p_todo s)) else None
      | _, _, _ => None end
  | PWake c i => match p_conn s c, p_bag s c with
      | (j, PSent), Some (Datatypes.S _) => if Nat.eqb i j then Some (l, mkPub (upd (p_conn s) c (i, PWoken)) (p_bag s) (p_queue s) (p_sink s) (p_todo s)) else None
      | _, _ => None end
  | PRemove c i => match p_conn s c with
      | (j, PWoken) => if Nat.eqb i j then Some (l, mkPub (upd (p_conn s) c (i, PRemoved)) (upd (p_bag s) c None) (p_queue s) (p_sink s) (p_todo s)) else None
      | _ => None end
  | PAnswer c i => match p_conn s c with
      | (j, PRemoved) => if Nat.eqb i j then Some (l, mkPub (upd (p_conn s) c (Datatypes.S i, PReady)) (p_bag s) (p_queue s) (p_sink s) (p_todo s)) else None
      | _ => None end
  | PDeliver _ => match p_todo s, p_queue s, k_valve_open (p_sink s) with
      | [], e :: q, true => match k_deliver xyes (p_sink s) e with Some (k, [CSend r]) => Some (PDeliver r, mkPub (p_conn s) (p_bag s) q k []) | _ => None end
      | _, _, _ => None end
  | PFlush => match p_todo s with
      | [] => match k_flush ans 4 (p_sink s) with Some (k, calls) => Some (PFlush, mkPub (p_conn s) (p_bag s) (p_queue s) k calls) | None => None end
      | _ => None end
  | PCall _ => match p_todo s with
      | CAck c :: todo => Some (PCall (CAck c), mkPub (p_conn s) (match p_bag s c with Some n => upd (p_bag s) c (Some (Datatypes.S n)) | None => p_bag s end) (p_queue s) (p_sink s) todo)
      | k :: todo => Some (PCall k, mkPub (p_conn s) (p_bag s) (p_queue s) (p_sink s) todo)
      | [] => None end
  end.
Lemma ptry_ok s l l' s' : ptry s l = Some (l', s') -> pstep xyes xyes ans xpay s l' s'.
Proof.
  destruct l; cbn [ptry]; intros H.
  - destruct (p_conn s c) as [j []] eqn:C; try discriminate. destruct (asks xyes xpay c i) as [[]|] eqn:A; try discriminate. destruct (Nat.eqb_spec i j) as [->|]; [|discriminate]. injection H as <- <-. apply p_prepare; assumption.
  - destruct (p_conn s c) as [j []] eqn:C; try discriminate; destruct (event_of xyes xpay c i) as [e|] eqn:E; try discriminate.
    + destruct (asks xyes xpay c i) as [[]|] eqn:A; try discriminate. destruct (Nat.eqb_spec i j) as [->|]; [|discriminate]. injection H as <- <-. apply p_send_async; assumption.
    + destruct (Nat.eqb_spec i j) as [->|]; [|discriminate]. injection H as <- <-. apply p_send_sync; assumption.
  - destruct (p_conn s c) as [j []] eqn:C; try discriminate. destruct (p_bag s c) as [[|n]|] eqn:B; try discriminate. destruct (Nat.eqb_spec i j) as [->|]; [|discriminate]. injection H as <- <-. apply p_wake; [assumption|congruence].
  - destruct (p_conn s c) as [j []] eqn:C; try discriminate. destruct (Nat.eqb_spec i j) as [->|]; [|discriminate]. injection H as <- <-. apply p_remove; assumption.
  - destruct (p_conn s c) as [j []] eqn:C; try discriminate. destruct (Nat.eqb_spec i j) as [->|]; [|discriminate]. injection H as <- <-. apply p_answer; assumption.
  - destruct (p_todo s) eqn:T; [|discriminate]. destruct (p_queue s) as [|e q] eqn:Q; [discriminate|]. destruct (k_valve_open (p_sink s)) eqn:V; [|discriminate].
    destruct (k_deliver xyes (p_sink s) e) as [[k [|[r0| | |] [|]]]|] eqn:D; try discriminate. injection H as <- <-. eapply p_deliver; eassumption.
  - destruct (p_todo s) eqn:T; [|discriminate]. destruct (k_flush ans 4 (p_sink s)) as [[k calls]|] eqn:F; [|discriminate]. injection H as <- <-. eapply p_flush; eassumption.
  - destruct (p_todo s) as [|[r|c|p f t|] todo] eqn:T; try discriminate; injection H as <- <-; (eapply p_ack; exact T) || (eapply p_call; [exact T|discriminate]).
Qed.
Fixpoint ptries (s : pub) (ls : list plabel) : option (list plabel * pub) :=
  match ls with
  | [] => Some ([], s)
  | l :: ls => match ptry s l with Some (l', s') => match ptries s' ls with Some (tr, s2) => Some (l' :: tr, s2) | None => None end | None => None end
  end.
Lemma ptries_ok ls : forall s tr s2, ptries s ls = Some (tr, s2) -> psteps xyes xyes ans xpay s tr s2.
Proof.
  induction ls as [|l ls IH]; intros s tr s2; cbn [ptries]; intros H; [injection H as <- <-; constructor|].
  destruct (ptry s l) as [[l' s']|] eqn:E; [|discriminate]. destruct (ptries s' ls) as [[tr' s3]|] eqn:E2; [|discriminate]. injection H as <- <-.
  econstructor; [eapply ptry_ok; exact E|apply IH; exact E2].
Qed.
Lemma ptries_run ls todo : option_map (fun p => (fst p, p_todo (snd p))) (ptries (pub_start 10) ls) = Some (ls, todo) -> exists s, pruns xyes xyes ans xpay 10 ls s /\ p_todo s = todo.
Proof.
  intros H. destruct (ptries (pub_start 10) ls) as [[tr s]|] eqn:E; [|discriminate]. cbn in H. injection H as -> <-. exists s. split; [|reflexivity].
  apply (psteps_runs xyes xyes ans xpay 10 [] (pub_start 10)); [constructor|apply ptries_ok with (ls := ls); exact E].
Qed.
End Try.
(** the first answer of the broker asks to try again, the second confirms *)
Definition xanswer (n : nat) : kanswer := match n with 0 => KProduction RequestTimedOut (mkOwned (Some [1]%N) (Some [57]%N) (Some [([107], [1])]%N)) | _ => KOk end.
Definition xrun : list plabel := [PPrepare 5 0; PSend 5 0 true; PDeliver (xrec 5 1); PFlush; PCall (CCount 0 0 1); PCall (CSend (xrec 5 1)); PCall (CCount 1 0 0); PCall (CAck 5); PWake 5 0; PRemove 5 0]%N.
Example C135_ex : (exists s, pruns xyes xyes xanswer xpay 10 (xrun ++ [PAnswer 5%N 0]) s /\ p_todo s = []) /\
  given xrun = [xrec 5 1; xrec 5 1] /\ honest_client xanswer (given xrun) /\ always_asks xyes (xpay 5%N) /\ (forall n, is_fatal (xanswer n) = false).
Proof.
  split; [|split; [reflexivity|split; [|split]]].
  - apply ptries_run. vm_compute. reflexivity.
  - intros [|[|n]] r H; cbn; [|exact Logic.I..]. injection H as <-. unfold gives_back. cbn. auto.
  - intros bs h m blob [<-|[<-|[]]]; cbn; intros E; injection E as <- _ _; reflexivity.
  - intros [|n]; reflexivity.
Qed.
Print Assumptions C135_answered_is_settled.
Print Assumptions C135_answered_is_confirmed.
Theorem C135_mixed_is_answered_early : exists tr s, pruns xyes xyes (fun _ => KOk) xpay 10 (tr ++ [PAnswer 6%N 1]) s /\
  nth_error (xpay 6%N) 1 = Some (xbytes 1 8 2) /\ wants_answer xyes (xpay 6%N) 1 /\ given tr = [xrec 6 1] /\ ~ carries xyes 6 (xbytes 1 8 2) (xrec 6 1).
Proof.
  pose (l := [PSend 6 0 true; PPrepare 6 1; PSend 6 1 true; PDeliver (xrec 6 1); PFlush; PCall (CCount 1 0 0); PCall (CAck 6); PWake 6 1; PRemove 6 1]%N).
  destruct (ptries_run (fun _ => KOk) (l ++ [PAnswer 6%N 1]) []) as (s & R & _); [vm_compute; reflexivity|]. exists l, s. split; [exact R|]. split; [reflexivity|]. split; [|split; [reflexivity|]].
  - exists (xbytes 1 8 2). eexists. eexists. eexists. split; [reflexivity|]. split; vm_compute; reflexivity.
  - intros (h & m & E & _). vm_compute in E. discriminate.
Qed.
Print Assumptions C135_mixed_is_answered_early.

(** ** C136: a payload that asks for an answer and reached the queue can be answered from every later state, when the
    broker stops asking to try again, the keys of the metadata are text and the sink may hold something *)
Theorem C136_can_still_be_answered_partial : forall container_ok utf8_ok ans payloads max tr s c i,
  (exists B, forall n, B <= n -> is_retry (ans n) = false) -> 0 < max -> keys_are_text container_ok utf8_ok payloads ->
  pruns container_ok utf8_ok ans payloads max tr s -> wants_answer container_ok (payloads c) i -> In (PSend c i true) tr -> ~ In (PAnswer c i) tr ->
  exists t s', pruns container_ok utf8_ok ans payloads max (tr ++ t ++ [PAnswer c i]) s'.
Proof.
  intros ok utf8 ans payloads max tr s c i Q M K R (bs & h & m & blob & E & P & Y) Hi Hn.
  eapply can_answer_unless; try eassumption.
  - intros c1 i1 e He. unfold event_of in He. destruct (nth_error (payloads c1) i1) as [bs1|] eqn:E1; [|discriminate]. unfold raw_of in He.
    destruct (payload_from ok bs1) as [|h1 m1 blob1|] eqn:P1; try discriminate. injection He as <-. unfold fine. cbn [r_metadata].
    destruct m1 as [m1|]; [|reflexivity]. apply forallb_forall. intros k Hk. apply in_map_iff in Hk as (kv & <- & Hk).
    pose proof (K c1 bs1 h1 m1 blob1 (nth_error_In _ _ E1) P1) as F. rewrite Forall_forall in F. auto.
  - unfold asks. rewrite E, P, Y. reflexivity.
Qed.
Example C136_ex : exists s, pruns xyes xyes xanswer xpay 10 [PPrepare 5%N 0; PSend 5%N 0 true] s /\ wants_answer xyes (xpay 5%N) 0 /\ keys_are_text xyes xyes xpay.
Proof.
  destruct (ptries_run xanswer [PPrepare 5%N 0; PSend 5%N 0 true] []) as (s & R & _); [vm_compute; reflexivity|]. exists s. split; [exact R|]. split.
  - exists (xbytes 1 7 1). eexists. eexists. eexists. split; [reflexivity|]. split; vm_compute; reflexivity.
  - intros c bs h m blob _ _. apply Forall_forall. reflexivity.
Qed.
Print Assumptions C136_can_still_be_answered_partial.
(** what is missing: when the queue was full the event is gone, and on a connection that always asks, nothing that
    happens later answers the payload *)
Theorem C136_dropped_is_never_answered : forall container_ok utf8_ok ans payloads max tr s c i,
  pruns container_ok utf8_ok ans payloads max tr s -> honest_client ans (given tr ++ sends (p_todo s)) -> always_asks container_ok (payloads c) ->
  In (PSend c i false) tr -> ~ In (PAnswer c i) tr.
Proof.
  intros ok utf8 ans payloads max tr s c i R Hh A Hi Ha. destruct (dropped_stuck _ _ _ _ _ _ _ _ _ R Hh (asks_always _ _ _ A) Hi) as (C & _).
  pose proof (answered_passed _ _ _ _ _ _ _ R c i Ha) as L. rewrite C in L. cbn [fst] in L. lia.
Qed.
Example C136_dropped_ex : exists s, pruns xyes xyes xanswer xpay 10 [PPrepare 5%N 0; PSend 5%N 0 false; PFlush] s /\ p_todo s = [].
Proof. apply ptries_run. vm_compute. reflexivity. Qed.
Print Assumptions C136_dropped_is_never_answered.
Theorem C136_refuted : exists tr s, pruns xyes xyes (fun _ => KOk) xpay 10 tr s /\ wants_answer xyes (xpay 5%N) 0 /\ In (PSend 5%N 0 false) tr /\
  forall t s', pruns xyes xyes (fun _ => KOk) xpay 10 (tr ++ t) s' -> ~ In (PAnswer 5%N 0) (tr ++ t).
Proof.
  destruct (ptries_run (fun _ => KOk) [PPrepare 5%N 0; PSend 5%N 0 false] []) as (s & R0 & _); [vm_compute; reflexivity|].
  exists [PPrepare 5%N 0; PSend 5%N 0 false], s. split; [exact R0|]. split; [|split; [right; left; reflexivity|]].
  - exists (xbytes 1 7 1). eexists. eexists. eexists. split; [reflexivity|]. split; vm_compute; reflexivity.
  - intros t s' R. eapply C136_dropped_is_never_answered; [exact R| | |right; left; reflexivity].
    + intros n r _. exact Logic.I.
    + intros bs h m blob [<-|[<-|[]]]; cbn; intros E; injection E as <- _ _; reflexivity.
Qed.
Print Assumptions C136_refuted.

(** ** C137: a waiting handler sleeps 5 ms, then twice as long each time, never longer than 250 ms, and not at all after
    the first look that finds an acknowledgement or no entry *)
Lemma wait_naps_zeros : forall k x j rest, x <> Some 0 ->
  wait_naps (nap j) (repeat (Some 0) k ++ x :: rest) = Some (map nap (seq j k)).
Proof.
  induction k as [|k IH]; intros x j rest Hx; cbn [repeat app wait_naps].
  - destruct x as [[|n]|]; [congruence|reflexivity|reflexivity].
  - assert (E : N.min 250 (nap j * 2) = nap (Datatypes.S j)).
    { unfold nap. rewrite Nat2N.inj_succ, N.pow_succ_r'. lia. }
    rewrite E, IH by exact Hx. reflexivity.
Qed.
Theorem C137_sleeps : forall k x rest, x <> Some 0 -> wait_for (repeat (Some 0) k ++ x :: rest) = Some (map nap (seq 0 k)).
Proof. intros k x rest Hx. unfold wait_for. change 5%N with (nap 0). apply wait_naps_zeros. exact Hx. Qed.
Theorem C137_waits : forall k, wait_for (repeat (Some 0) k) = None.
Proof. intros k. unfold wait_for. generalize 5%N. induction k as [|k IH]; intros m; cbn [repeat wait_naps]; [reflexivity|]. rewrite IH. reflexivity. Qed.
Theorem C137_never_long : forall looks naps, wait_for looks = Some naps -> Forall (fun ms => 5 <= ms <= 250)%N naps.
Proof.
  unfold wait_for. assert (G : forall looks j naps, wait_naps (nap j) looks = Some naps -> Forall (fun ms => 5 <= ms <= 250)%N naps).
  { induction looks as [|x looks IH]; intros j naps H; [discriminate|]. cbn [wait_naps] in H. destruct x as [[|n]|]; [|injection H as <-; constructor|injection H as <-; constructor].
    assert (E : N.min 250 (nap j * 2) = nap (Datatypes.S j)) by (unfold nap; rewrite Nat2N.inj_succ, N.pow_succ_r'; lia).
    rewrite E in H. destruct (wait_naps (nap (Datatypes.S j)) looks) as [l|] eqn:W; [|discriminate]. injection H as <-. constructor; [|eapply IH; exact W].
    unfold nap. pose proof (N.pow_nonzero 2 (N.of_nat j)). lia. }
  intros looks naps. apply (G looks 0).
Qed.
Example C137_ex : wait_for (repeat (Some 0) 8 ++ [Some 1; Some 0]) = Some [5; 10; 20; 40; 80; 160; 250; 250]%N.
Proof. reflexivity. Qed.
Print Assumptions C137_sleeps.
Print Assumptions C137_waits.
Print Assumptions C137_never_long.
