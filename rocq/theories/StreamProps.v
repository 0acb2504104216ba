(** * Properties C125 to C128: the handler of one connection of the avro and native sources. *)
From Verif Require Import Base BaseFacts TelemetryModel TelemetryProps QExample FramingModel FramingSpec FramingProofs FramingProps
  AvroModel AvroSpec AvroProofs AvroProps ProtoModel NativeModel NativeProofs NativeProps StreamModel StreamSpec StreamProofs.
Open Scope list_scope. Open Scope nat_scope.

(** ** C125: writing an answer *)
(** The bytes on the wire are always a prefix of the answer, all of it exactly when
    write_all succeeds; it fails only when a write fails. *)
Theorem C125_prefix : forall ws bs e rest out, write_all ws bs = (e, rest, out) ->
  prefix out bs /\ (e = WDone <-> out = bs) /\ (e = WFailed -> In WFail ws).
Proof. intros ws bs e rest out H. pose proof (write_all_spec ws bs e rest out H). tauto. Qed.
(** However the peer takes the bytes, once it took enough the answer is complete. *)
Theorem C125_completes : forall ws bs, ~ In WFail ws -> List.length bs <= taken ws ->
  exists rest, write_all ws bs = (WDone, rest, bs).
Proof.
  intros ws bs Hf Hl. destruct (write_all ws bs) as [[e rest] out] eqn:E. exists rest.
  pose proof (write_all_spec ws bs e rest out E) as ((c & Hc) & H1 & H2 & H3 & H4 & H5).
  assert (Hd : e = WDone).
  { destruct e; [reflexivity| |]; exfalso.
    - apply Hf, H2; reflexivity.
    - specialize (H5 ltac:(discriminate) Hf). assert (c = []) as ->.
      { rewrite Hc, app_length in Hl. destruct c; [reflexivity|cbn in Hl; lia]. }
      rewrite app_nil_r in Hc. symmetry in Hc. apply H1 in Hc. discriminate. }
  subst e. destruct H1 as [H1 _]. rewrite (H1 eq_refl). reflexivity.
Qed.
(** It gives up for no other reason: while the peer does not read it goes round. *)
Theorem C125_peer_not_reading : forall ws b bs, stuck ws -> write_all ws (b :: bs) = (WSpins, [], []).
Proof.
  induction ws as [|w ws IH]; intros b bs H; [reflexivity|]. inversion H as [|? ? H1 H2]; subst.
  cbn [write_all]. destruct H1 as [->|[->| ->]]; [apply IH; assumption|apply IH; assumption|].
  cbn [skipn firstn app]. rewrite (IH b bs H2). reflexivity.
Qed.
Example C125_ex :
  write_all [WOk 2; WBlock; WOk 0; WIntr; WOk 1; WOk 1] [1; 2; 3; 4]%N = (WDone, [], [1; 2; 3; 4]%N) /\
  write_all [WOk 3; WFail; WOk 1] [1; 2; 3; 4]%N = (WFailed, [WOk 1], [1; 2; 3]%N) /\
  stuck [WBlock; WOk 0; WIntr] /\ write_all [WBlock; WOk 0; WIntr] [1%N] = (WSpins, [], []).
Proof. split; [reflexivity|]. split; [reflexivity|]. split; [repeat (apply Forall_cons; [auto|]); constructor|reflexivity]. Qed.

(** ** C126: the answers of the avro source *)
Lemma sync_odd h : h_sync h = N.odd (h_control h).
Proof.
  unfold h_sync. change 1%N with (N.ones 1) at 1. rewrite N.land_ones. change (2 ^ 1)%N with 2%N.
  rewrite <- N.bit0_mod. rewrite N.bit0_odd. destruct (N.odd (h_control h)); reflexivity.
Qed.
(** the client's payload is one the source takes *)
Definition c_ok (ok : list N -> bool) (c : client_payload) : Prop := head_ok (c_head c) (c_kvs c) /\ ok (c_blob c) = true.
Lemma serve_client ok conn c : c_ok ok c ->
  exists m, avro_serve ok conn (c_bytes c) = VAccept [mkRaw (h_order_by (c_head c)) EncAvro (c_blob c) m (Some conn)] (c_answer c).
Proof.
  intros [H1 H2]. destruct (C33_round_trip ok (c_head c) (c_kvs c) (c_blob c) H1 H2) as (m & Hm & _). exists m.
  unfold avro_serve, c_bytes. rewrite Hm. unfold c_answer. rewrite <- sync_odd. destruct (h_sync (c_head c)); reflexivity.
Qed.
Lemma clients_answers ok conn cs : Forall (c_ok ok) cs ->
  flat_map (answer_for (avro_serve ok conn)) (map c_bytes cs) = flat_map c_answer cs /\
  map (fun r => (r_bytes r, r_order_by r, r_conn r)) (flat_map (sent_for (avro_serve ok conn)) (map c_bytes cs)) =
    map (fun c => (c_blob c, h_order_by (c_head c), Some conn)) cs /\
  Forall (accepted (avro_serve ok conn)) (map c_bytes cs).
Proof.
  induction 1 as [|c cs H _ (IH1 & IH2 & IH3)]; [repeat split; constructor|]. destruct (serve_client ok conn c H) as (m & Hm).
  cbn [map flat_map]. rewrite map_app, IH1, IH2. unfold answer_for at 1, sent_for at 1. rewrite Hm. split; [reflexivity|]. split; [reflexivity|].
  constructor; [exists [mkRaw (h_order_by (c_head c)) EncAvro (c_blob c) m (Some conn)], (c_answer c); assumption|assumption].
Qed.
Lemma prefix_map {A B} (f : A -> B) : forall l l', prefix l' (map f l) -> exists n, l' = map f (firstn n l).
Proof.
  intros l l' [c Hc]. exists (List.length l'). rewrite <- firstn_map, Hc, firstn_app, Nat.sub_diag, firstn_all, firstn_O, app_nil_r. reflexivity.
Qed.

(** Whatever the polls report, however the bytes arrive and the answers are taken: what
    is sent on is one event for each payload read, the payloads read are the first ones
    carried by the connection, and the bytes answered are the ids of those that asked,
    eight bytes each, in order.  Only a failing write or a peer that does not read cuts
    them short; a handler that closes the connection or waits has answered in full. *)
Theorem C126_answers : forall ok conn cap max cs sc ws polls g s,
  Forall (c_ok ok) cs -> carried cap max sc = map c_bytes cs ->
  session_run (avro_serve ok conn) cap max polls (session_start sc ws) = (g, s) ->
  exists n, se_read s = map c_bytes (firstn n cs) /\
    prefix (se_wire s) (flat_map c_answer (firstn n cs)) /\
    (g = GGo \/ g = GClosed -> se_wire s = flat_map c_answer (firstn n cs)) /\
    map (fun r => (r_bytes r, r_order_by r, r_conn r)) (se_sent s) =
      map (fun c => (c_blob c, h_order_by (c_head c), Some conn)) (firstn n cs).
Proof.
  intros ok conn cap max cs sc ws polls g s Hok Hcar Hrun.
  pose proof (session_spec (avro_serve ok conn) cap max (handle_stream cap max sc) polls _ (inv_start (avro_serve ok conn) cap max sc ws)) as G. rewrite Hrun in G.
  unfold carried in Hcar.
  assert (Hpre : prefix (se_read s) (fst (handle_stream cap max sc)) -> exists n, se_read s = map c_bytes (firstn n cs))
    by (rewrite Hcar; apply prefix_map).
  assert (Hn : forall n, Forall (c_ok ok) (firstn n cs)).
  { intros n. rewrite <- (firstn_skipn n cs) in Hok. apply Forall_app in Hok. tauto. }
  assert (Hfull : prefix (se_read s) (fst (handle_stream cap max sc)) -> se_sent s = flat_map (sent_for (avro_serve ok conn)) (se_read s) ->
     se_wire s = flat_map (answer_for (avro_serve ok conn)) (se_read s) ->
     exists n, se_read s = map c_bytes (firstn n cs) /\
    prefix (se_wire s) (flat_map c_answer (firstn n cs)) /\
    (g = GGo \/ g = GClosed -> se_wire s = flat_map c_answer (firstn n cs)) /\
    map (fun r => (r_bytes r, r_order_by r, r_conn r)) (se_sent s) =
      map (fun c => (c_blob c, h_order_by (c_head c), Some conn)) (firstn n cs)).
  { intros Hp Hs Hw. destruct (Hpre Hp) as [n En]. destruct (clients_answers ok conn _ (Hn n)) as (A1 & A2 & _).
    exists n. rewrite Hs, Hw, En, A1, A2. split; [reflexivity|]. split; [exists []; rewrite app_nil_r; reflexivity|]. auto. }
  assert (Hinv : inv (avro_serve ok conn) cap max (handle_stream cap max sc) s -> prefix (se_read s) (fst (handle_stream cap max sc))).
  { intros (I1 & _). rewrite I1. eexists. reflexivity. }
  assert (Hend : ended (avro_serve ok conn) (handle_stream cap max sc) g s -> exists n, se_read s = map c_bytes (firstn n cs) /\
    prefix (se_wire s) (flat_map c_answer (firstn n cs)) /\
    (g = GGo \/ g = GClosed -> se_wire s = flat_map c_answer (firstn n cs)) /\
    map (fun r => (r_bytes r, r_order_by r, r_conn r)) (se_sent s) =
      map (fun c => (c_blob c, h_order_by (c_head c), Some conn)) (firstn n cs)).
  { intros He. inversion He; subst; try (apply Hfull; assumption).
    - apply Hfull; auto. rewrite H. exists []. cbn. rewrite app_nil_r. reflexivity.
    - destruct (Hpre H) as [n En]. destruct (clients_answers ok conn _ (Hn n)) as (A1 & A2 & _).
      destruct H3 as (out & [c Hc] & _ & Hw). exists n. split; [assumption|]. split; [|split].
      + exists c. rewrite <- A1, <- En, H0, flat_map_snoc, Hc, Hw, app_assoc. reflexivity.
      + intros [->| ->]; destruct H7; discriminate.
      + rewrite H2, En, A2. reflexivity. }
  destruct g.
  - destruct G as (I & _). apply Hfull; [apply Hinv; assumption|destruct I as (_ & _ & ? & _); assumption|destruct I as (_ & _ & _ & ? & _); assumption].
  - destruct G as [G|[_ I]]; [apply Hend; assumption|]. apply Hfull; [apply Hinv; assumption|destruct I as (_ & _ & ? & _); assumption|destruct I as (_ & _ & _ & ? & _); assumption].
  - destruct G as [G|[_ I]]; [apply Hend; assumption|]. apply Hfull; [apply Hinv; assumption|destruct I as (_ & _ & ? & _); assumption|destruct I as (_ & _ & _ & ? & _); assumption].
  - apply Hend; assumption.
Qed.
(** A client sends payloads, in whatever pieces, and closes; the handler is polled
    without a shutdown.  When the handler closes the connection the client has the ids of
    all its payloads that asked, in order. *)
Theorem C126_all_answered : forall ok conn cap max cs sc ws polls s,
  0 < cap -> Forall (c_ok ok) cs ->
  Forall (fun c => List.length (c_bytes c) <= max /\ (N.of_nat (List.length (c_bytes c)) < 4294967296)%N) cs ->
  healthy sc -> bytes_of sc = frames (map c_bytes cs) ->
  (forall s1 s2, sc = s1 ++ ABlock :: s2 -> outside_lengths (map c_bytes cs) (List.length (bytes_of s1))) ->
  ~ signalled polls ->
  session_run (avro_serve ok conn) cap max polls (session_start sc ws) = (GClosed, s) ->
  se_wire s = flat_map c_answer cs /\
  map (fun r => (r_bytes r, r_order_by r, r_conn r)) (se_sent s) = map (fun c => (c_blob c, h_order_by (c_head c), Some conn)) cs /\
  se_ok s = N.of_nat (List.length cs) /\ se_refused s = 0%N /\ se_io s = 0%N.
Proof.
  intros ok conn cap max cs sc ws polls s Hc Hok Hlen Hh Hb Hcut Hns Hrun.
  assert (Hhs : handle_stream cap max sc = (map c_bytes cs, EEof)).
  { apply C31_framing_partial; auto. apply Forall_map. eapply Forall_impl; [|exact Hlen]. cbv beta. intros c [H1 H2].
    split; [|auto]. unfold c_bytes, enc_payload, enc_head. cbn. discriminate. }
  pose proof (session_spec (avro_serve ok conn) cap max (handle_stream cap max sc) polls _ (inv_start (avro_serve ok conn) cap max sc ws)) as G.
  rewrite Hrun in G. destruct G as [G|[G _]]; [|contradiction]. destruct (clients_answers ok conn cs Hok) as (A1 & A2 & A3).
  rewrite Hhs in G. inversion G; subst; cbn [fst snd] in *; try (destruct H7; discriminate).
  - injection H as H. rewrite <- H in *. rewrite map_length in *. rewrite H2, H3, A1, A2. auto.
  - exfalso. rewrite Forall_forall in A3. destruct H as [c Hc']. destruct (A3 p) as (evs & ans & Ha); [|congruence].
    rewrite Hc', H0. apply in_or_app. left. apply in_or_app. right. left. reflexivity.
Qed.
(** and it does close it: each poll event about the connection is used up by its running
    dry once, so with more events than that it is no longer waiting *)
Theorem C126_not_waiting : forall {E} (serve : list N -> @verdict E) cap max sc ws polls,
  dry sc < stream_events polls -> fst (session_run serve cap max polls (session_start sc ws)) <> GGo.
Proof.
  intros E serve cap max sc ws polls H. pose proof (session_spec serve cap max (handle_stream cap max sc) polls _ (inv_start serve cap max sc ws)) as G.
  destruct (session_run serve cap max polls (session_start sc ws)) as [[| | |] s]; try (cbn; discriminate).
  destruct G as (_ & _ & _ & G). cbn [session_start se_reader reader_new b_sock] in G. lia.
Qed.
Definition ex_client (control id : N) (blob : list N) : client_payload := mkClient (mkHeader 1 control id 9) [] blob.
Definition ex_clients : list client_payload := [ex_client 1 258 [5]; ex_client 0 7 [6; 6]; ex_client 3 3 []]%N.
Definition ex_arrivals : list arrival :=
  let bs := frames (map c_bytes ex_clients) in [AData (firstn 10 bs); ABlock; AData (skipn 10 bs)].
Definition ex_writes : list wres := [WOk 3; WBlock; WOk 5; WIntr; WOk 8].
Example C126_ex :
  Forall (c_ok (fun _ => true)) ex_clients /\ healthy ex_arrivals /\ bytes_of ex_arrivals = frames (map c_bytes ex_clients) /\
  carried 16 100 ex_arrivals = map c_bytes ex_clients /\ dry ex_arrivals = 1 /\ ~ signalled [PEvents [TStream]; PEvents [TStream]] /\
  fst (session_run (avro_serve (fun _ => true) 77) 16 100 [PEvents [TStream]; PEvents [TStream]] (session_start ex_arrivals ex_writes)) = GClosed /\
  se_wire (snd (session_run (avro_serve (fun _ => true) 77) 16 100 [PEvents [TStream]; PEvents [TStream]] (session_start ex_arrivals ex_writes))) =
    [0; 0; 0; 0; 0; 0; 1; 2; 0; 0; 0; 0; 0; 0; 0; 3]%N /\
  flat_map c_answer ex_clients = [0; 0; 0; 0; 0; 0; 1; 2; 0; 0; 0; 0; 0; 0; 0; 3]%N.
Proof.
  split; [repeat constructor; cbn; lia|]. split; [repeat constructor; discriminate|]. repeat (split; [reflexivity|]).
  split; [|repeat split; reflexivity]. intros (l & [H|[H|[]]] & Hl); injection H as <-; destruct Hl as [H|[]]; discriminate.
Qed.

(** ** C127: refused payloads *)
(** In every execution, of both sources: the payloads read are the first ones carried; all
    but possibly the last were accepted; when the last was not, the handler is at its end
    and nothing after it is looked at.  The counters say how many were accepted and whether
    one was refused. *)
Theorem C127_refused_ends : forall {E} (serve : list N -> @verdict E) cap max sc ws polls g s,
  session_run serve cap max polls (session_start sc ws) = (g, s) ->
  prefix (se_read s) (carried cap max sc) /\
  exists good bad, se_read s = good ++ bad /\ Forall (accepted serve) good /\
    se_sent s = flat_map (sent_for serve) (se_read s) /\
    se_ok s = N.of_nat (List.length good) /\
    (bad = [] /\ se_refused s = 0%N \/
     exists p, bad = [p] /\ (serve p = VRefuse /\ g = GClosed /\ se_refused s = 1%N \/
                             (exists evs, serve p = VPanic evs) /\ g = GPanic /\ se_refused s = 0%N)).
Proof.
  intros E serve cap max sc ws polls g s Hrun.
  pose proof (session_spec serve cap max (handle_stream cap max sc) polls _ (inv_start serve cap max sc ws)) as G. rewrite Hrun in G.
  assert (Hinv : inv serve cap max (handle_stream cap max sc) s -> prefix (se_read s) (carried cap max sc) /\
  exists good bad, se_read s = good ++ bad /\ Forall (accepted serve) good /\ se_sent s = flat_map (sent_for serve) (se_read s) /\
    se_ok s = N.of_nat (List.length good) /\
    (bad = [] /\ se_refused s = 0%N \/
     exists p, bad = [p] /\ (serve p = VRefuse /\ g = GClosed /\ se_refused s = 1%N \/
                             (exists evs, serve p = VPanic evs) /\ g = GPanic /\ se_refused s = 0%N))).
  { intros (I1 & I2 & I3 & I4 & I5 & I6 & I7). split; [unfold carried; rewrite I1; eexists; reflexivity|].
    exists (se_read s), []. rewrite app_nil_r. auto 8. }
  assert (Hend : ended serve (handle_stream cap max sc) g s -> prefix (se_read s) (carried cap max sc) /\
  exists good bad, se_read s = good ++ bad /\ Forall (accepted serve) good /\ se_sent s = flat_map (sent_for serve) (se_read s) /\
    se_ok s = N.of_nat (List.length good) /\
    (bad = [] /\ se_refused s = 0%N \/
     exists p, bad = [p] /\ (serve p = VRefuse /\ g = GClosed /\ se_refused s = 1%N \/
                             (exists evs, serve p = VPanic evs) /\ g = GPanic /\ se_refused s = 0%N))).
  { intros He. unfold carried. inversion He; subst.
    - split; [rewrite H; exists []; cbn; rewrite app_nil_r; reflexivity|]. exists (se_read s), []. rewrite app_nil_r. auto 8.
    - split; [assumption|]. exists good, [p]. repeat (split; [assumption|]). right. exists p. auto 8.
    - split; [assumption|]. exists good, [p]. repeat (split; [assumption|]). right. exists p. split; [reflexivity|]. right. split; [exists evs; assumption|auto].
    - split; [assumption|]. exists (se_read s), []. rewrite app_nil_r.
      split; [reflexivity|]. split; [rewrite H0; assumption|]. auto 8. }
  destruct g.
  - apply Hinv. tauto.
  - destruct G as [G|[_ G]]; auto.
  - destruct G as [G|[_ G]]; auto.
  - auto.
Qed.
(** a payload whose body the avro library does not take: the client has the answers of the
    payloads before it, nothing of it or of what follows is sent on, the connection is closed *)
Theorem C127_bad_body : forall ok conn cap max cs bad more sc ws polls s,
  Forall (c_ok ok) cs -> head_ok (c_head bad) (c_kvs bad) -> ok (c_blob bad) = false ->
  carried cap max sc = map c_bytes cs ++ c_bytes bad :: more -> ~ signalled polls ->
  session_run (avro_serve ok conn) cap max polls (session_start sc ws) = (GClosed, s) ->
  se_read s = map c_bytes cs ++ [c_bytes bad] /\ se_wire s = flat_map c_answer cs /\
  map (fun r => (r_bytes r, r_order_by r, r_conn r)) (se_sent s) = map (fun c => (c_blob c, h_order_by (c_head c), Some conn)) cs /\
  se_ok s = N.of_nat (List.length cs) /\ se_refused s = 1%N.
Proof.
  intros ok conn cap max cs bad more sc ws polls s Hok Hh Hb Hcar Hns Hrun.
  assert (Hbad : avro_serve ok conn (c_bytes bad) = VRefuse) by (unfold avro_serve, c_bytes; rewrite C33_bad_body_rejected by assumption; reflexivity).
  pose proof (session_spec (avro_serve ok conn) cap max (handle_stream cap max sc) polls _ (inv_start (avro_serve ok conn) cap max sc ws)) as G.
  rewrite Hrun in G. destruct G as [G|[G _]]; [|contradiction]. destruct (clients_answers ok conn cs Hok) as (A1 & A2 & A3).
  unfold carried in Hcar. inversion G; subst; try (destruct H7; discriminate).
  - exfalso. rewrite H in Hcar. cbn [fst] in Hcar. rewrite Hcar in H1. apply Forall_app in H1 as [_ H1]. inversion H1 as [|? ? (evs & ans & Ha) _]; subst. congruence.
  - rewrite Hcar in H.
    assert (Hg : se_read s = map c_bytes cs ++ [c_bytes bad]).
    { destruct H as [c Hc]. rewrite H0 in Hc. rewrite <- app_assoc in Hc. cbn [app] in Hc. clear - Hc H1 H2 A3 Hbad H0. rewrite H0. clear H0.
      generalize dependent (c_bytes bad). intros pb Hpb Hc.
      revert good H1 Hc. generalize (map c_bytes cs) A3. clear cs A3. intros l A. induction A as [|x l Hx A IH]; intros good Hgood Hc.
      - destruct good as [|y good]; cbn [app] in Hc; [injection Hc as <- _; reflexivity|].
        injection Hc as <- _. inversion Hgood as [|? ? (evs & ans & Ha) _]; subst. congruence.
      - destruct good as [|y good]; cbn [app] in Hc.
        + injection Hc as -> _. destruct Hx as (evs & ans & Ha). congruence.
        + injection Hc as -> Hc. inversion Hgood; subst. cbn. f_equal. apply IH; assumption. }
    split; [assumption|]. rewrite Hg in H0. apply app_inj_tail in H0 as [<- <-]. rewrite map_length in H5.
    rewrite H3, H4, Hg, !flat_map_snoc, A1, map_app, A2. unfold answer_for, sent_for. rewrite Hbad. cbn. rewrite !app_nil_r. auto.
Qed.
(** the native source, polled without a shutdown, sends on what C50 and C60 speak of *)
Theorem C127_native : forall `{Q : QLib} utf8 now cap max sc ws polls s,
  ~ signalled polls ->
  session_run (native_serve utf8 now) cap max polls (session_start sc ws) = (GClosed, s) ->
  fst (native_stream utf8 cap max now sc) = se_sent s /\ se_wire s = [] /\
  snd (native_stream utf8 cap max now sc) = (if (se_refused s =? 1)%N then HParse else HStream (snd (handle_stream cap max sc))).
Proof.
  intros Q utf8 now cap max sc ws polls s Hns Hrun.
  pose proof (session_spec (native_serve utf8 now) cap max (handle_stream cap max sc) polls _ (inv_start (native_serve utf8 now) cap max sc ws)) as G.
  rewrite Hrun in G. destruct G as [G|[G _]]; [|contradiction].
  rewrite (native_stream_consume utf8 cap max now sc _ _ (surjective_pairing _)).
  assert (Hw : forall l, flat_map (answer_for (native_serve utf8 now)) l = []).
  { induction l as [|p l IH]; [reflexivity|]. cbn [flat_map]. rewrite IH, app_nil_r. unfold answer_for, native_serve.
    destruct (handle_payload utf8 now p) as [evs [| |]]; reflexivity. }
  assert (Hgood : forall l more e, Forall (accepted (native_serve utf8 now)) l ->
     consume utf8 now (l ++ more) e = (flat_map (sent_for (native_serve utf8 now)) l ++ fst (consume utf8 now more e), snd (consume utf8 now more e))).
  { induction l as [|p l IH]; intros more e Hl; [cbn; destruct (consume utf8 now more e); reflexivity|].
    inversion Hl as [|? ? (evs & ans & Ha) Hl']; subst. cbn [app consume flat_map]. rewrite (IH more e Hl').
    unfold sent_for at 2. rewrite Ha. unfold native_serve in Ha. destruct (handle_payload utf8 now p) as [evs' [| |]]; try discriminate.
    injection Ha as -> _. rewrite <- app_assoc. reflexivity. }
  inversion G; subst.
  - pose proof (Hgood (se_read s) [] (snd (handle_stream cap max sc)) H1) as C. rewrite app_nil_r in C. cbn [consume fst snd] in C.
    replace (fst (handle_stream cap max sc)) with (se_read s) by (rewrite H; reflexivity).
    rewrite C. cbn [fst snd]. rewrite app_nil_r, H2, H3, H5, Hw. auto.
  - destruct H as [c Hc]. rewrite Hc, H0, <- app_assoc, Hgood by assumption. cbn [app consume].
    rewrite H3, H0, flat_map_snoc, H4, H6, Hw. unfold sent_for at 3. rewrite H2.
    unfold native_serve in H2. destruct (handle_payload utf8 now p) as [evs [| |]] eqn:Ep; try discriminate.
    apply C60_refused_sends_nothing in Ep. subst evs. auto.
  - destruct H7; discriminate.
Qed.
Example C127_ex :
  let bad := ex_client 1 4 [0]%N in
  let ok := fun b => match b with [0%N] => false | _ => true end in
  let sc := [AData (frames (map c_bytes [ex_client 1 258 [5]; bad; ex_client 1 8 [6]]))]%N in
  c_ok ok (ex_client 1 258 [5]%N) /\ head_ok (c_head bad) (c_kvs bad) /\ ok (c_blob bad) = false /\
  carried 16 100 sc = map c_bytes [ex_client 1 258 [5]]%N ++ c_bytes bad :: map c_bytes [ex_client 1 8 [6]]%N /\
  fst (session_run (avro_serve ok 77) 16 100 [PEvents [TStream]] (session_start sc [WOk 8; WOk 8])) = GClosed /\
  se_wire (snd (session_run (avro_serve ok 77) 16 100 [PEvents [TStream]] (session_start sc [WOk 8; WOk 8]))) = [0; 0; 0; 0; 0; 0; 1; 2]%N.
Proof.
  cbv zeta. assert (H : forall id, (id < 2 ^ 64)%N -> head_ok (mkHeader 1 1 id 9) []).
  { intros id Hid. split; [cbn [h_version h_control h_id h_order_by]; repeat split; try assumption; reflexivity|]. split; [cbn; lia|]. split; [constructor|reflexivity]. }
  split; [split; [apply H; reflexivity|reflexivity]|]. split; [apply H; reflexivity|]. repeat (split; [reflexivity|]). reflexivity.
Qed.

(** ** C128: the shutdown signal *)
(** Full claim: a handler told to shut down ends.  It is false: while the peer does not
    read its answer the handler stays in write_all, whatever the polls would report. *)
Theorem C128_refuted : exists ok conn cap max sc ws, stuck ws /\ forall later,
  fst (session_run (avro_serve ok conn) cap max (PEvents [TStream; TSystem] :: later) (session_start sc ws)) = GSpins.
Proof.
  exists (fun _ => true), 77%N, 16, 100, [AData (frames [c_bytes (ex_client 1 258 [5])])]%N, [WBlock; WIntr; WOk 0].
  split; [repeat (apply Forall_cons; [auto|]); constructor|]. intros later. reflexivity.
Qed.
(** What holds: whatever came before, once a poll reports it the handler is not waiting any
    more, and what later polls would report plays no part; *)
Theorem C128_signal_ends_partial : forall {E} (serve : list N -> @verdict E) cap max sc ws before l later,
  In TSystem l ->
  let res := session_run serve cap max (before ++ PEvents l :: later) (session_start sc ws) in
  fst res <> GGo /\ res = session_run serve cap max (before ++ [PEvents l]) (session_start sc ws).
Proof.
  intros E serve cap max sc ws before l later Hl res. split.
  - pose proof (session_spec serve cap max (handle_stream cap max sc) (before ++ PEvents l :: later) _ (inv_start serve cap max sc ws)) as G.
    unfold res. destruct (session_run serve cap max (before ++ PEvents l :: later) (session_start sc ws)) as [[| | |] s]; try (cbn; discriminate).
    destruct G as (_ & G & _). exfalso. apply G. exists l. split; [apply in_or_app; right; left; reflexivity|assumption].
  - unfold res. clear res. generalize (@session_start E sc ws). induction before as [|p before IH]; intros s.
    + cbn [app session_run]. destruct (poll_events serve cap max l s) as [[| | |] s'] eqn:Ee; try reflexivity. exfalso.
      revert s s' Ee. induction l as [|t l IHl]; intros s s' Ee; [destruct Hl|]. cbn [poll_events] in Ee. destruct t; [discriminate|].
      destruct Hl as [Hl|Hl]; [discriminate|]. destruct (drain serve cap max _ s) as [[| | |] s1]; try discriminate. exact (IHl Hl _ _ Ee).
    + cbn [app session_run]. destruct p as [l'|]; [|reflexivity]. destruct (poll_events serve cap max l' s) as [[| | |] s']; try reflexivity. apply IH.
Qed.
(** if the poll reports it first, nothing more is read; *)
Theorem C128_nothing_more_partial : forall {E} (serve : list N -> @verdict E) cap max sc ws before l later s,
  session_run serve cap max before (session_start sc ws) = (GGo, s) ->
  session_run serve cap max (before ++ PEvents (TSystem :: l) :: later) (session_start sc ws) = (GClosed, s).
Proof.
  intros E serve cap max sc ws before l later s. generalize (@session_start E sc ws). induction before as [|p before IH]; intros s0 H.
  - cbn in H. injection H as ->. reflexivity.
  - cbn [app session_run] in *. destruct p as [l'|]; [|discriminate]. destruct (poll_events serve cap max l' s0) as [[| | |] s']; try discriminate. apply IH; assumption.
Qed.
(** and it ends if the peer reads its answers: as many writes take something as there are
    bytes to answer.  It closes the connection, unless poll fails or a payload makes it
    panic; then it answered in full what it read. *)
Theorem C128_ends_if_peer_reads_partial : forall {E} (serve : list N -> @verdict E) cap max sc ws polls g s,
  signalled polls -> ~ In WFail ws -> List.length (flat_map (answer_for serve) (carried cap max sc)) <= reads ws ->
  session_run serve cap max polls (session_start sc ws) = (g, s) ->
  (g = GClosed \/ g = GPanic /\ (In PError polls \/ exists p evs, In p (carried cap max sc) /\ serve p = VPanic evs)) /\
  se_wire s = flat_map (answer_for serve) (se_read s).
Proof.
  intros E serve cap max sc ws polls g s Hs Hf Hw Hrun.
  pose proof (session_spec serve cap max (handle_stream cap max sc) polls _ (inv_start serve cap max sc ws)) as G.
  assert (P : peer serve cap max (carried cap max sc) (session_start sc ws)) by (split; [apply incl_refl|split; [assumption|split; [assumption|reflexivity]]]).
  pose proof (session_peer serve cap max (carried cap max sc) polls _ P) as R. rewrite Hrun in G, R.
  destruct g.
  - destruct G as (_ & G & _). contradiction.
  - auto.
  - destruct R as [R A]. split; [right; auto|assumption].
  - contradiction.
Qed.
Example C128_ex :
  let polls := [PEvents [TStream]; PEvents [TSystem; TStream]; PEvents [TStream]] in
  let sc := [AData (frames (map c_bytes [ex_client 1 258 [5]])); ABlock; AData (frames (map c_bytes [ex_client 1 8 [6]]))]%N in
  let res := session_run (avro_serve (fun _ => true) 77) 16 100 polls (session_start sc (repeat (WOk 1) 16)) in
  signalled polls /\ ~ In WFail (repeat (WOk 1) 16) /\
  List.length (flat_map (answer_for (avro_serve (fun _ => true) 77)) (carried 16 100 sc)) = 16 /\ reads (repeat (WOk 1) 16) = 16 /\
  fst res = GClosed /\ se_wire (snd res) = [0; 0; 0; 0; 0; 0; 1; 2]%N /\ se_ok (snd res) = 1%N.
Proof.
  cbv zeta. split; [exists [TSystem; TStream]; split; [right; left; reflexivity|left; reflexivity]|].
  split; [intros H; apply repeat_spec in H; discriminate|]. repeat split; reflexivity.
Qed.

Print Assumptions C125_prefix.
Print Assumptions C125_completes.
Print Assumptions C125_peer_not_reading.
Print Assumptions C126_answers.
Print Assumptions C126_all_answered.
Print Assumptions C126_not_waiting.
Print Assumptions C127_refused_ends.
Print Assumptions C127_bad_body.
Print Assumptions C127_native.
Print Assumptions C128_refuted.
Print Assumptions C128_signal_ends_partial.
Print Assumptions C128_nothing_more_partial.
Print Assumptions C128_ends_if_peer_reads_partial.
