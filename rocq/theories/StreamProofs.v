(** * Proofs about the handler of one connection. *)
From Verif Require Import Base BaseFacts TelemetryModel FramingModel FramingSpec FramingProofs AvroModel AvroSpec StreamModel StreamSpec.
Open Scope list_scope. Open Scope nat_scope.

(** ** write_all *)
Lemma write_all_spec : forall ws bs e r out, write_all ws bs = (e, r, out) ->
  prefix out bs /\ (e = WDone <-> out = bs) /\ (e = WFailed -> In WFail ws) /\ (e = WSpins -> r = []) /\
  List.length out <= taken ws /\ (e <> WDone -> ~ In WFail ws -> List.length out = taken ws).
Proof.
  induction ws as [|w ws IH]; intros bs e r out H.
  - destruct bs as [|b bs]; cbn in H; injection H as <- <- <-.
    + split; [exists []; reflexivity|]. repeat split; try discriminate; auto; try congruence.
    + split; [exists (b :: bs); reflexivity|]. repeat split; try discriminate; auto.
  - destruct bs as [|b bs].
    + cbn in H. injection H as <- <- <-. split; [exists []; reflexivity|]. repeat split; try discriminate; auto; try congruence; cbn; lia.
    + cbn [write_all] in H. destruct w as [n| | |].
      * destruct (write_all ws (skipn n (b :: bs))) as [[e' r'] out'] eqn:E. injection H as <- <- <-.
        apply IH in E as ((c & Ec) & E2 & E3 & E4 & E5 & E6).
        assert (L : List.length (firstn n (b :: bs)) <= n) by (rewrite firstn_length; lia).
        split; [exists c; rewrite <- app_assoc, <- Ec; symmetry; apply firstn_skipn|].
        split; [|split; [|split; [|split]]].
        -- rewrite E2. split; intros H.
           ++ rewrite H. apply firstn_skipn.
           ++ rewrite <- (firstn_skipn n (b :: bs)) in H at 2. apply app_inv_head in H. exact H.
        -- intros H. right. auto.
        -- assumption.
        -- rewrite app_length. cbn. fold (taken ws). lia.
        -- intros H1 H2. assert (Hn : n < List.length (b :: bs)).
           { destruct (Nat.le_gt_cases (List.length (b :: bs)) n) as [Hle|]; [|assumption]. exfalso. apply H1. apply E2.
             rewrite (skipn_all2 _ Hle) in *. destruct out'; [reflexivity|discriminate]. }
           rewrite app_length, firstn_length_le by lia. change (taken (WOk n :: ws)) with (n + taken ws). rewrite E6; auto. intros Hin. apply H2. right; assumption.
      * destruct (IH _ _ _ _ H) as (E1 & E2 & E3 & E4 & E5 & E6). split; [assumption|]. split; [assumption|].
        split; [intros K; right; auto|]. split; [assumption|]. split; [assumption|]. intros K1 K2. apply E6; [assumption|]. intros Hin. apply K2. right; assumption.
      * destruct (IH _ _ _ _ H) as (E1 & E2 & E3 & E4 & E5 & E6). split; [assumption|]. split; [assumption|].
        split; [intros K; right; auto|]. split; [assumption|]. split; [assumption|]. intros K1 K2. apply E6; [assumption|]. intros Hin. apply K2. right; assumption.
      * injection H as <- <- <-. split; [exists (b :: bs); reflexivity|]. repeat split; try discriminate; auto.
        -- intros _. left; reflexivity.
        -- cbn. lia.
        -- intros _ K. exfalso. apply K. left; reflexivity.
Qed.

Lemma write_all_reads : forall ws bs, ~ In WFail ws -> List.length bs <= reads ws ->
  exists r, write_all ws bs = (WDone, r, bs) /\ ~ In WFail r /\ reads ws <= List.length bs + reads r.
Proof.
  induction ws as [|w ws IH]; intros bs Hf Hl.
  - destruct bs; [|cbn in Hl; lia]. exists []. auto.
  - destruct bs as [|b bs]; [exists (w :: ws); auto|].
    assert (Hf' : ~ In WFail ws) by (intros H; apply Hf; right; assumption). cbn [write_all]. destruct w as [n| | |].
    + destruct n as [|n].
      * destruct (IH (b :: bs) Hf' Hl) as (r & E & R1 & R2). exists r. cbn [skipn firstn app]. rewrite E. auto.
      * change (reads (WOk (S n) :: ws)) with (S (reads ws)) in *. cbn [List.length] in Hl.
        destruct (IH (skipn n bs) Hf' ltac:(rewrite skipn_length; lia)) as (r & E & R1 & R2). exists r. cbn [skipn]. rewrite E.
        split; [|split; [assumption|]].
        -- cbn [firstn app]. rewrite firstn_skipn. reflexivity.
        -- rewrite skipn_length in R2. cbn [List.length]. lia.
    + apply IH; assumption.
    + apply IH; assumption.
    + exfalso. apply Hf. left; reflexivity.
Qed.

(** ** reading uses up the script *)
Lemma sock_read_size n sc :
  match sock_read n sc with
  | (ROk bs, sc') => sock_size sc = List.length bs + sock_size sc' /\ dry sc = dry sc'
  | (RBlock, sc') => sock_size sc = S (sock_size sc') /\ dry sc = S (dry sc')
  | (_, sc') => sock_size sc = S (sock_size sc') /\ dry sc = dry sc'
  end.
Proof.
  induction sc as [|a sc IH]; [cbn; auto|]. destruct a as [[|b bs]| | |]; cbn [sock_read]; try (split; reflexivity).
  - destruct (sock_read n sc) as [[?| | |] ?]; exact IH.
  - assert (L : List.length (b :: bs) = List.length (firstn n (b :: bs)) + List.length (skipn n (b :: bs)))
      by (rewrite <- app_length, firstn_skipn; reflexivity).
    change (sock_size (AData (b :: bs) :: sc)) with (List.length (b :: bs) + sock_size sc). change (dry (AData (b :: bs) :: sc)) with (dry sc).
    destruct (skipn n (b :: bs)) as [|y ys].
    + cbn [List.length] in *. split; [lia|reflexivity].
    + change (sock_size (AData (y :: ys) :: sc)) with (List.length (y :: ys) + sock_size sc). split; [lia|reflexivity].
Qed.
Lemma buf_read_size cap n buf sc :
  match buf_read cap n buf sc with
  | (ROk bs, buf', sc') => List.length buf + sock_size sc = List.length bs + (List.length buf' + sock_size sc') /\ dry sc = dry sc'
  | (RBlock, buf', sc') => List.length buf' + sock_size sc' < List.length buf + sock_size sc /\ dry sc = S (dry sc')
  | (_, buf', sc') => List.length buf' + sock_size sc' < List.length buf + sock_size sc /\ dry sc = dry sc'
  end.
Proof.
  unfold buf_read. destruct buf as [|b buf].
  - destruct (cap <=? n).
    + pose proof (sock_read_size n sc) as G. destruct (sock_read n sc) as [[bs| | |] sc']; cbn [List.length Nat.add]; lia.
    + pose proof (sock_read_size cap sc) as G. destruct (sock_read cap sc) as [[bs| | |] sc']; cbn [List.length Nat.add]; try lia.
      rewrite <- (firstn_skipn n bs) in G at 1. rewrite app_length in G. lia.
  - rewrite <- (firstn_skipn n (b :: buf)) at 1. rewrite app_length. lia.
Qed.
Lemma read_exact_size cap : forall fuel want got buf sc,
  match read_exact fuel cap want got buf sc with
  | (XOk _, buf', sc') => List.length buf' + sock_size sc' <= List.length buf + sock_size sc /\ dry sc = dry sc'
  | (XBlock, buf', sc') => List.length buf' + sock_size sc' < List.length buf + sock_size sc /\ dry sc = S (dry sc')
  | _ => True
  end.
Proof.
  induction fuel as [|fuel IH]; intros want got buf sc; [exact I|]. cbn [read_exact]. destruct want as [|want]; [auto|].
  pose proof (buf_read_size cap (S want) buf sc) as G. destruct (buf_read cap (S want) buf sc) as [[[bs| | |] buf'] sc']; auto.
  - destruct bs as [|b bs]; [exact I|]. specialize (IH (S want - List.length (b :: bs)) (got ++ b :: bs) buf' sc').
    destruct (read_exact fuel cap _ _ buf' sc') as [[[l| | |] buf2] sc2]; auto; lia.
  - specialize (IH (S want) got buf' sc'). destruct (read_exact fuel cap _ _ buf' sc') as [[[l| | |] buf2] sc2]; auto; lia.
Qed.
Lemma payload_loop_size cap size : forall fuel r,
  match payload_loop fuel cap size r with
  | (None, r') => reader_size r' < reader_size r /\ dry (b_sock r) = dry (b_sock r')
  | (Some EWouldBlock, r') => reader_size r' < reader_size r /\ dry (b_sock r) = S (dry (b_sock r'))
  | _ => True
  end.
Proof.
  induction fuel as [|fuel IH]; intros r; [exact I|]. cbn [payload_loop]. unfold reader_size in *.
  pose proof (buf_read_size cap (size - b_pos r) (b_buf r) (b_sock r)) as G.
  destruct (buf_read cap (size - b_pos r) (b_buf r) (b_sock r)) as [[[bs| | |] buf'] sc']; auto.
  destruct bs as [|b bs]; [exact I|]. destruct (b_pos r + List.length (b :: bs) =? size).
  - cbn [b_buf b_sock]. cbn [List.length] in G. lia.
  - match goal with |- context [payload_loop fuel cap size ?R] => specialize (IH R); destruct (payload_loop fuel cap size R) as [[[| | |]|] r'] end;
      auto; cbn [b_buf b_sock List.length] in *; lia.
Qed.
Lemma read_size cap max r :
  match read cap max r with
  | (inl _, r') => reader_size r' < reader_size r /\ dry (b_sock r) = dry (b_sock r')
  | (inr EWouldBlock, r') => reader_size r' < reader_size r /\ dry (b_sock r) = S (dry (b_sock r'))
  | _ => True
  end.
Proof.
  assert (G : match read_length cap r with
    | (None, r') => reader_size r' <= reader_size r /\ dry (b_sock r) = dry (b_sock r')
    | (Some EWouldBlock, r') => reader_size r' < reader_size r /\ dry (b_sock r) = S (dry (b_sock r'))
    | _ => True end).
  { unfold read_length. destruct (b_size r); [auto|].
    pose proof (read_exact_size cap (5 + reader_size r) 4 [] (b_buf r) (b_sock r)) as G.
    destruct (read_exact (5 + reader_size r) cap 4 [] (b_buf r) (b_sock r)) as [[[l| | |] buf'] sc']; auto. }
  unfold read. destruct (read_length cap r) as [[e|] r1].
  - destruct e; auto.
  - destruct (b_size r1) as [size|]; [|exact I]. destruct (max <? size); [exact I|]. unfold read_payload.
    match goal with |- context [payload_loop ?f cap size ?R] => pose proof (payload_loop_size cap size f R) as P; destruct (payload_loop f cap size R) as [[[| | |]|] r2] end;
      auto; unfold reader_size in *; cbn [b_buf b_sock] in *; lia.
Qed.

(** ** what is still to come of a connection *)
Definition rest_of (cap max : nat) (r : reader) : list (list N) * perr := handle (1 + reader_size r) cap max r.
Lemma handle_fuel cap max : forall f1 f2 r, reader_size r < f1 -> reader_size r < f2 -> handle f1 cap max r = handle f2 cap max r.
Proof.
  induction f1 as [|f1 IH]; intros [|f2] r H1 H2; try lia. cbn [handle]. pose proof (read_size cap max r) as G.
  destruct (read cap max r) as [[p|[| | |]] r']; auto.
  - rewrite (IH f2 r') by lia. reflexivity.
  - apply IH; lia.
Qed.
Lemma rest_unfold cap max r : rest_of cap max r =
  match read cap max r with
  | (inl p, r') => (p :: fst (rest_of cap max r'), snd (rest_of cap max r'))
  | (inr EWouldBlock, r') => rest_of cap max r'
  | (inr e, _) => ([], e)
  end.
Proof.
  unfold rest_of at 1. cbn [Nat.add handle]. pose proof (read_size cap max r) as G.
  destruct (read cap max r) as [[p|[| | |]] r']; auto.
  - unfold rest_of. rewrite (handle_fuel cap max (reader_size r) (1 + reader_size r') r') by lia. destruct (handle _ _ _ _); reflexivity.
  - unfold rest_of. apply handle_fuel; lia.
Qed.
Lemma carried_rest cap max sc : carried cap max sc = fst (rest_of cap max (reader_new sc)).
Proof. reflexivity. Qed.

(** ** sessions *)
Section Session.
Context {E : Type}.
Variable serve : list N -> @verdict E.
Variables cap max : nat.
Notation session := (@session E).
Notation drain := (drain serve cap max).
Notation poll_events := (poll_events serve cap max).
Notation session_run := (session_run serve cap max).
Notation accepted := (accepted serve).
Notation sent_for := (sent_for serve).
Notation answer_for := (answer_for serve).

(** streaming, the payloads read are accepted and answered in full *)
Definition inv (all : list (list N) * perr) (s : session) : Prop :=
  all = (se_read s ++ fst (rest_of cap max (se_reader s)), snd (rest_of cap max (se_reader s))) /\
  Forall accepted (se_read s) /\ se_sent s = flat_map sent_for (se_read s) /\ se_wire s = flat_map answer_for (se_read s) /\
  se_ok s = N.of_nat (List.length (se_read s)) /\ se_refused s = 0%N /\ se_io s = 0%N.
(** how it can have ended *)
Inductive ended (all : list (list N) * perr) : going -> session -> Prop :=
| ended_stream s : all = (se_read s, snd all) -> snd all <> EWouldBlock ->
    Forall accepted (se_read s) -> se_sent s = flat_map sent_for (se_read s) -> se_wire s = flat_map answer_for (se_read s) ->
    se_ok s = N.of_nat (List.length (se_read s)) -> se_refused s = 0%N ->
    se_io s = match snd all with EEof => 0%N | _ => 1%N end -> ended all GClosed s
| ended_refused s good p : prefix (se_read s) (fst all) -> se_read s = good ++ [p] -> Forall accepted good -> serve p = VRefuse ->
    se_sent s = flat_map sent_for (se_read s) -> se_wire s = flat_map answer_for (se_read s) ->
    se_ok s = N.of_nat (List.length good) -> se_refused s = 1%N -> se_io s = 0%N -> ended all GClosed s
| ended_panic s good p evs : prefix (se_read s) (fst all) -> se_read s = good ++ [p] -> Forall accepted good -> serve p = VPanic evs ->
    se_sent s = flat_map sent_for (se_read s) -> se_wire s = flat_map answer_for (se_read s) ->
    se_ok s = N.of_nat (List.length good) -> se_refused s = 0%N -> se_io s = 0%N -> ended all GPanic s
| ended_write s good p g : prefix (se_read s) (fst all) -> se_read s = good ++ [p] -> Forall accepted (good ++ [p]) ->
    se_sent s = flat_map sent_for (se_read s) ->
    (exists out, prefix out (answer_for p) /\ out <> answer_for p /\ se_wire s = flat_map answer_for good ++ out) ->
    se_ok s = N.of_nat (List.length (se_read s)) -> se_refused s = 0%N -> se_io s = 0%N -> (g = GPanic \/ g = GSpins) -> ended all g s.

Lemma flat_map_snoc {A B} (f : A -> list B) l x : flat_map f (l ++ [x]) = flat_map f l ++ f x.
Proof. rewrite flat_map_app. cbn. rewrite app_nil_r. reflexivity. Qed.

Ltac proj := cbn [se_reader se_writes se_wire se_sent se_read se_ok se_refused se_io with_reader].
Ltac projin H := cbn [se_reader se_writes se_wire se_sent se_read se_ok se_refused se_io with_reader] in H.

Lemma drain_spec all : forall fuel s, inv all s -> reader_size (se_reader s) < fuel ->
  match drain fuel s with
  | (GGo, s') => inv all s' /\ S (dry (b_sock (se_reader s'))) = dry (b_sock (se_reader s))
  | (g, s') => ended all g s'
  end.
Proof.
  induction fuel as [|fuel IH]; intros s I Hf; [lia|]. cbn [StreamModel.drain]. pose proof (read_size cap max (se_reader s)) as G.
  destruct I as (I1 & I2 & I3 & I4 & I5 & I6 & I7). rewrite rest_unfold in I1.
  destruct (read cap max (se_reader s)) as [[p|e] r].
  - cbn [fst snd] in I1. assert (Pf : prefix (se_read s ++ [p]) (fst all)).
    { exists (fst (rest_of cap max r)). rewrite I1, <- app_assoc. reflexivity. }
    destruct (serve p) as [|evs|evs ans] eqn:Es.
    + apply ended_refused with (good := se_read s) (p := p); proj; auto.
      * rewrite flat_map_snoc, I3. unfold StreamSpec.sent_for at 3. rewrite Es, app_nil_r. reflexivity.
      * rewrite flat_map_snoc, I4. unfold StreamSpec.answer_for at 3. rewrite Es, app_nil_r. reflexivity.
      * rewrite I6. reflexivity.
    + apply ended_panic with (good := se_read s) (p := p) (evs := evs); proj; auto.
      * rewrite flat_map_snoc, I3. unfold StreamSpec.sent_for at 3. rewrite Es. reflexivity.
      * rewrite flat_map_snoc, I4. unfold StreamSpec.answer_for at 3. rewrite Es, app_nil_r. reflexivity.
    + assert (Ha : answer_for p = ans) by (unfold StreamSpec.answer_for; rewrite Es; reflexivity).
      assert (He : sent_for p = evs) by (unfold StreamSpec.sent_for; rewrite Es; reflexivity).
      assert (Hacc : Forall accepted (se_read s ++ [p])) by (apply Forall_app; split; [assumption|constructor; [exists evs, ans; assumption|constructor]]).
      destruct (write_all (se_writes s) ans) as [[e ws] out] eqn:Ew.
      pose proof (write_all_spec _ _ _ _ _ Ew) as (W1 & W2 & _ & _ & _ & _).
      assert (Hlen : (se_ok s + 1)%N = N.of_nat (List.length (se_read s ++ [p]))) by (rewrite I5, app_length; cbn [List.length]; lia).
      assert (Hs : se_sent s ++ evs = flat_map sent_for (se_read s ++ [p])) by (rewrite flat_map_snoc, I3, He; reflexivity).
      destruct e.
      * assert (Hd : out = ans) by (apply W2; reflexivity).
        set (s' := mkSession r ws (se_wire s ++ out) (se_sent s ++ evs) (se_read s ++ [p]) (se_ok s + 1) (se_refused s) (se_io s)).
        assert (I' : inv all s').
        { unfold inv, s'. proj. rewrite <- app_assoc. split; [assumption|]. split; [assumption|]. split; [assumption|].
          split; [rewrite flat_map_snoc, I4, Ha, Hd; reflexivity|]. auto. }
        specialize (IH s' I' ltac:(unfold s'; proj; lia)).
        destruct (drain fuel s') as [[| | |] s2]; auto. destruct IH as [IH1 IH2]. split; [assumption|]. rewrite IH2. unfold s'. proj. symmetry; tauto.
      * apply ended_write with (good := se_read s) (p := p); proj; auto.
        exists out. rewrite Ha. split; [assumption|]. split; [intros K; apply W2 in K; discriminate|]. rewrite I4. reflexivity.
      * apply ended_write with (good := se_read s) (p := p); proj; auto.
        exists out. rewrite Ha. split; [assumption|]. split; [intros K; apply W2 in K; discriminate|]. rewrite I4. reflexivity.
  - destruct e.
    1,3,4: (cbn [fst snd] in I1; rewrite app_nil_r in I1; apply ended_stream; proj; auto; rewrite ?I1; cbn [snd]; rewrite ?I7; auto; discriminate).
    split; [|proj; symmetry; tauto]. unfold inv. proj. rewrite I7. auto 10.
Qed.

(** the events of polls, in order *)
Definition has_system (l : list token) : Prop := In TSystem l.
Lemma poll_events_spec all : forall l s, inv all s ->
  match poll_events l s with
  | (GGo, s') => inv all s' /\ ~ In TSystem l /\
      List.length (filter (fun t => match t with TStream => true | TSystem => false end) l) + dry (b_sock (se_reader s')) = dry (b_sock (se_reader s))
  | (g, s') => ended all g s' \/ (In TSystem l /\ g = GClosed /\ inv all s')
  end.
Proof.
  induction l as [|t l IH]; intros s I; cbn [StreamModel.poll_events].
  - cbn. auto.
  - destruct t.
    + right. split; [left; reflexivity|]. auto.
    + pose proof (drain_spec all (1 + reader_size (se_reader s)) s I ltac:(lia)) as G.
      destruct (drain (1 + reader_size (se_reader s)) s) as [[| | |] s1]; auto.
      destruct G as [G1 G2]. specialize (IH s1 G1). destruct (poll_events l s1) as [[| | |] s2].
      * destruct IH as (J1 & J2 & J3). split; [assumption|]. split; [intros [H|H]; [discriminate|auto]|]. cbn [filter List.length]. lia.
      * destruct IH as [IH|(J1 & J2 & J3)]; [auto|]. right. split; [right; assumption|auto].
      * destruct IH as [IH|(J1 & J2 & J3)]; [auto|]. discriminate.
      * destruct IH as [IH|(J1 & J2 & J3)]; [auto|]. discriminate.
Qed.
Lemma session_spec all : forall ps s, inv all s ->
  match session_run ps s with
  | (GGo, s') => inv all s' /\ ~ signalled ps /\ ~ In PError ps /\ stream_events ps + dry (b_sock (se_reader s')) = dry (b_sock (se_reader s))
  | (GClosed, s') => ended all GClosed s' \/ (signalled ps /\ inv all s')
  | (GPanic, s') => ended all GPanic s' \/ (In PError ps /\ inv all s')
  | (GSpins, s') => ended all GSpins s'
  end.
Proof.
  induction ps as [|p ps IH]; intros s I; cbn [StreamModel.session_run].
  - split; [assumption|]. split; [intros (l & [] & _)|]. cbn. auto.
  - destruct p as [l|].
    + pose proof (poll_events_spec all l s I) as G. destruct (poll_events l s) as [[| | |] s1].
      * destruct G as (G1 & G2 & G3). specialize (IH s1 G1). destruct (session_run ps s1) as [[| | |] s2].
        -- destruct IH as (J1 & J2 & J3 & J4). split; [assumption|]. split.
           ++ intros (l' & [H|H] & Hs); [injection H as ->; auto|]. apply J2. exists l'. auto.
           ++ split; [intros [H|H]; [discriminate|auto]|]. cbn [stream_events fold_right]. fold (stream_events ps). lia.
        -- destruct IH as [IH|[(l' & H1 & H2) J]]; [auto|]. right. split; [|assumption]. exists l'. split; [right; assumption|assumption].
        -- destruct IH as [IH|[H J]]; [auto|]. right. split; [right; assumption|assumption].
        -- assumption.
      * destruct G as [G|(H & _ & J)]; [auto|]. right. split; [|assumption]. exists l. split; [left; reflexivity|assumption].
      * destruct G as [G|(H & H2 & J)]; [auto|discriminate].
      * destruct G as [G|(H & H2 & J)]; [auto|discriminate].
    + right. split; [left; reflexivity|assumption].
Qed.
Lemma inv_start sc ws : inv (handle_stream cap max sc) (session_start sc ws).
Proof.
  unfold inv, session_start. proj. cbn [app flat_map List.length]. split; [|auto 10].
  change (handle_stream cap max sc) with (rest_of cap max (reader_new sc)). destruct (rest_of cap max (reader_new sc)); reflexivity.
Qed.

(** ** a peer that reads its answers *)
Definition answered (s : session) : Prop := se_wire s = flat_map answer_for (se_read s).
Definition peer (all : list (list N)) (s : session) : Prop :=
  incl (fst (rest_of cap max (se_reader s))) all /\ ~ In WFail (se_writes s) /\
  List.length (flat_map answer_for (fst (rest_of cap max (se_reader s)))) <= reads (se_writes s) /\ answered s.
Definition dies (all : list (list N)) : Prop := exists p evs, In p all /\ serve p = VPanic evs.
Lemma drain_peer all : forall fuel s, peer all s -> reader_size (se_reader s) < fuel ->
  match drain fuel s with
  | (GGo, s') => peer all s'
  | (GClosed, s') => answered s'
  | (GPanic, s') => dies all /\ answered s'
  | (GSpins, _) => False
  end.
Proof.
  induction fuel as [|fuel IH]; intros s (P1 & P2 & P3 & P4) Hf; [lia|]. cbn [StreamModel.drain]. pose proof (read_size cap max (se_reader s)) as G.
  rewrite rest_unfold in P1, P3. unfold answered in *. destruct (read cap max (se_reader s)) as [[p|e] r].
  - cbn [fst] in P1, P3. destruct (serve p) as [|evs|evs ans] eqn:Es.
    + proj. rewrite flat_map_snoc, P4. unfold StreamSpec.answer_for at 3. rewrite Es, app_nil_r. reflexivity.
    + split; [exists p, evs; split; [apply P1; left; reflexivity|assumption]|].
      proj. rewrite flat_map_snoc, P4. unfold StreamSpec.answer_for at 3. rewrite Es, app_nil_r. reflexivity.
    + cbn [flat_map] in P3. rewrite app_length in P3. unfold StreamSpec.answer_for at 1 in P3. rewrite Es in P3.
      destruct (write_all_reads (se_writes s) ans P2 ltac:(lia)) as (ws & E1 & W1 & W2). rewrite E1.
      apply IH; [|proj; lia]. split; [|split; [|split]]; proj; [|assumption|lia|].
      * intros x Hx. apply P1. right; assumption.
      * unfold answered. proj. rewrite flat_map_snoc, P4. unfold StreamSpec.answer_for at 3. rewrite Es. reflexivity.
  - destruct e; try (proj; assumption). split; [|split; [|split]]; proj; assumption.
Qed.
Lemma poll_events_peer all : forall l s, peer all s ->
  match poll_events l s with
  | (GGo, s') => peer all s'
  | (GClosed, s') => answered s'
  | (GPanic, s') => dies all /\ answered s'
  | (GSpins, _) => False
  end.
Proof.
  induction l as [|t l IH]; intros s P; cbn [StreamModel.poll_events]; [assumption|]. destruct t; [apply P|].
  pose proof (drain_peer all (1 + reader_size (se_reader s)) s P ltac:(lia)) as G.
  destruct (drain (1 + reader_size (se_reader s)) s) as [[| | |] s1]; auto. apply IH; assumption.
Qed.
Lemma session_peer all : forall ps s, peer all s ->
  match session_run ps s with
  | (GGo, s') => peer all s'
  | (GClosed, s') => answered s'
  | (GPanic, s') => (In PError ps \/ dies all) /\ answered s'
  | (GSpins, _) => False
  end.
Proof.
  induction ps as [|p ps IH]; intros s P; cbn [StreamModel.session_run]; [assumption|].
  destruct p as [l|]; [|split; [left; left; reflexivity|apply P]].
  pose proof (poll_events_peer all l s P) as G. destruct (poll_events l s) as [[| | |] s1]; auto.
  - specialize (IH s1 G). destruct (session_run ps s1) as [[| | |] s2]; auto. destruct IH as [[IH|IH] A]; (split; [|assumption]); [left; right; assumption|auto].
  - destruct G as [G A]. auto.
Qed.
End Session.
