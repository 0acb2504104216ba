(** * Properties C31, C32: length-prefixed framing. *)
From Verif Require Import Base BaseFacts FramingModel FramingSpec FramingProofs.
Open Scope list_scope. Open Scope nat_scope.

(** ** C31: the full claim is false.  When the socket runs dry inside a length
    field, the bytes of it already read are forgotten. *)
Theorem C31_split_length_refuted : exists cap max ps sc,
  0 < cap /\ Forall (fun p => p <> [] /\ List.length p <= max) ps /\ healthy sc /\ bytes_of sc = frames ps /\
  fst (handle_stream cap max sc) <> ps.
Proof.
  exists 16, 100, [[7; 7]%N], [AData [0; 0]%N; ABlock; AData [0; 2; 7; 7]%N].
  split; [lia|]. split; [constructor; [split; [discriminate|cbn; lia]|constructor]|].
  split; [repeat constructor; discriminate|]. split; [reflexivity|]. cbn. discriminate.
Qed.

Lemma handle_stream_spec cap max ps tail e sc : 0 < cap ->
  Forall (fun p => p <> [] /\ List.length p <= max /\ (N.of_nat (List.length p) < 4294967296)%N) ps ->
  ending max tail e -> healthy sc -> bytes_of sc = frames ps ++ tail ->
  (forall s1 s2, sc = s1 ++ ABlock :: s2 -> outside_lengths (ps ++ [tail]) (List.length (bytes_of s1))) ->
  handle_stream cap max sc = (ps, e).
Proof.
  intros Hc Hp He Hh Hb Hcut. unfold handle_stream.
  apply (handle_spec cap max tail e Hc He _ ps (reader_new sc) []).
  - eapply Forall_impl; [|exact Hp]. cbv beta. tauto.
  - eapply Forall_impl; [|exact Hp]. cbv beta. intros p (_ & _ & H). apply be32_dec; assumption.
  - split; [split; reflexivity|]. split; [exact Hh|]. cbn. apply cuts_split. intros s1 s2 E. cbn.
    apply (off_lengths_iff ps tail). exact (Hcut s1 s2 E).
  - unfold held. cbn. assumption.
  - change (sock_size sc < 1 + sock_size sc). lia.
Qed.
(** What holds: exactly the payloads, in order, for every way the bytes arrive in
    which the socket never runs dry inside a length field. *)
Theorem C31_framing_partial : forall cap max ps sc,
  0 < cap ->
  Forall (fun p => p <> [] /\ List.length p <= max /\ (N.of_nat (List.length p) < 4294967296)%N) ps ->
  healthy sc -> bytes_of sc = frames ps ->
  (forall s1 s2, sc = s1 ++ ABlock :: s2 -> outside_lengths ps (List.length (bytes_of s1))) ->
  handle_stream cap max sc = (ps, EEof).
Proof.
  intros cap max ps sc Hc Hp Hh Hb Hcut.
  apply (handle_stream_spec cap max ps [] EEof sc); auto.
  - apply end_in_length. cbn. lia.
  - rewrite app_nil_r. assumption.
  - intros s1 s2 E before p after Ep. destruct (list_eq_dec (list_eq_dec N.eq_dec) after []) as [->|Ha].
    + apply app_inj_tail in Ep as [<- _]. intros [H1 _]. rewrite <- Hb, E in H1.
      unfold bytes_of in H1. rewrite map_app, concat_app, app_length in H1. lia.
    + destruct (exists_last Ha) as (a' & x & ->). rewrite app_comm_cons, app_assoc in Ep. apply app_inj_tail in Ep as [Ep _].
      exact (Hcut s1 s2 E before p a' Ep).
Qed.
(** In particular, if all bytes are there before the reader runs. *)
Theorem C31_no_wait : forall cap max ps (chunks : list (list N)),
  0 < cap ->
  Forall (fun p => p <> [] /\ List.length p <= max /\ (N.of_nat (List.length p) < 4294967296)%N) ps ->
  List.concat chunks = frames ps ->
  handle_stream cap max (map AData chunks) = (ps, EEof).
Proof.
  intros cap max ps chunks Hc Hp Hb. apply C31_framing_partial; auto.
  - apply Forall_map. apply Forall_forall. intros x _. split; discriminate.
  - rewrite <- Hb. unfold bytes_of. rewrite map_map, map_id. reflexivity.
  - intros s1 s2 E. exfalso. assert (Hin : In ABlock (map AData chunks)) by (rewrite E; apply in_or_app; right; left; reflexivity).
    apply in_map_iff in Hin as (x & Hx & _). discriminate.
Qed.
(** A stream cut short delivers its complete payloads and nothing of the last one. *)
Theorem C31_cut_short : forall cap max ps p sc lost,
  0 < cap ->
  Forall (fun p => p <> [] /\ List.length p <= max /\ (N.of_nat (List.length p) < 4294967296)%N) (ps ++ [p]) ->
  healthy sc -> bytes_of sc ++ lost = frames (ps ++ [p]) -> lost <> [] -> List.length lost <= List.length (frame p) ->
  (forall s1 s2, sc = s1 ++ ABlock :: s2 -> outside_lengths (ps ++ [p]) (List.length (bytes_of s1))) ->
  handle_stream cap max sc = (ps, EEof).
Proof.
  intros cap max ps p sc lost Hc Hp Hh Hb Hl Hl2 Hcut. apply Forall_app in Hp as [Hps Hp]. inversion Hp as [|? ? (Hp1 & Hp2 & Hp3) _]; subst.
  assert (Ef : frames (ps ++ [p]) = frames ps ++ frame p) by (unfold frames; rewrite map_app, concat_app; cbn; rewrite app_nil_r; reflexivity).
  rewrite Ef in Hb.
  assert (Hlen : List.length (bytes_of sc) + List.length lost = List.length (frames ps) + List.length (frame p)) by (rewrite <- !app_length, Hb; reflexivity).
  assert (Ht : exists tail, bytes_of sc = frames ps ++ tail /\ frame p = tail ++ lost).
  { exists (skipn (List.length (frames ps)) (bytes_of sc)).
    assert (E := Hb). rewrite <- (firstn_skipn (List.length (frames ps)) (bytes_of sc)) in E. rewrite <- app_assoc in E.
    apply app_len_inj in E as [E1 E2]; [|rewrite firstn_length; lia].
    split; [|symmetry; exact E2]. rewrite <- E1 at 1. symmetry. apply firstn_skipn. }
  destruct Ht as (tail & Et & Ep). apply (handle_stream_spec cap max ps tail EEof sc); auto.
  - assert (Lp : List.length (frame p) = 4 + List.length p) by (unfold frame; rewrite app_length; reflexivity).
    rewrite Ep, app_length in Lp. assert (0 < List.length lost) by (destruct lost; [congruence|cbn; lia]).
    destruct (Nat.ltb_spec (List.length tail) 4); [apply end_in_length; assumption|].
    assert (F : firstn 4 tail = be32 (List.length p)).
    { assert (E := f_equal (firstn 4) Ep). rewrite firstn_app in E. replace (4 - List.length tail) with 0 in E by lia. rewrite firstn_O, app_nil_r in E.
      rewrite <- E. reflexivity. }
    apply end_in_payload; [assumption| |]; rewrite F, be32_dec by assumption; lia.
  - intros s1 s2 E before q after Eq. specialize (Hcut s1 s2 E).
    destruct (list_eq_dec (list_eq_dec N.eq_dec) after []) as [->|Ha].
    + apply app_inj_tail in Eq as [-> _]. apply (Hcut before p []). reflexivity.
    + destruct (exists_last Ha) as (a' & x & ->). rewrite app_comm_cons, app_assoc in Eq. apply app_inj_tail in Eq as [-> _].
      apply (Hcut before q (a' ++ [p])). rewrite app_comm_cons, app_assoc. reflexivity.
Qed.
Example C31_ex :
  handle_stream 4 100 [AData [0; 0]%N; AData [0; 2; 7]%N; ABlock; AData [8; 0; 0; 0; 1]%N; ABlock; AData [9]%N] = ([[7; 8]; [9]]%N, EEof) /\
  bytes_of [AData [0; 0]%N; AData [0; 2; 7]%N; ABlock; AData [8; 0; 0; 0; 1]%N; ABlock; AData [9]%N] = frames [[7; 8]; [9]]%N /\
  handle_stream 4 100 [AData [0; 0]%N; ABlock; AData [0; 2; 7; 7]%N] = ([], ETooLarge) /\
  handle_stream 4 100 [AData [0; 0; 0; 2; 7; 8; 0; 0; 0; 3; 1; 1]%N] = ([[7; 8]]%N, EEof).
Proof. repeat split. Qed.
Print Assumptions C31_split_length_refuted.
Print Assumptions C31_framing_partial.
Print Assumptions C31_no_wait.
Print Assumptions C31_cut_short.

(** ** C32: over-long payloads end the stream, after the payloads before them *)
Theorem C32_over_long_rejected : forall cap max ps tail sc,
  0 < cap ->
  Forall (fun p => p <> [] /\ List.length p <= max /\ (N.of_nat (List.length p) < 4294967296)%N) ps ->
  4 <= List.length tail -> max < be_dec (firstn 4 tail) ->
  healthy sc -> bytes_of sc = frames ps ++ tail ->
  (forall s1 s2, sc = s1 ++ ABlock :: s2 -> outside_lengths (ps ++ [tail]) (List.length (bytes_of s1))) ->
  handle_stream cap max sc = (ps, ETooLarge).
Proof.
  intros cap max ps tail sc Hc Hp H4 Hm Hh Hb Hcut. apply (handle_stream_spec cap max ps tail); auto. apply end_too_large; assumption.
Qed.
(** and only those: every stream of bytes consists of frames and a tail, and the
    stream ends as too large only if the tail starts with a too large length *)
Lemma be_dec_be32 l : List.length l = 4 -> Forall (fun b => (b < 256)%N) l -> be32 (be_dec l) = l /\ (N.of_nat (be_dec l) < 4294967296)%N.
Proof.
  destruct l as [|a [|b [|c [|d [|]]]]]; try discriminate. intros _ H.
  inversion H as [|? ? Ha H1]; subst. inversion H1 as [|? ? Hb H2]; subst. inversion H2 as [|? ? Hc H3]; subst. inversion H3 as [|? ? Hd _]; subst. clear H H1 H2 H3.
  unfold be_dec, be32. cbn [fold_left]. rewrite N2Nat.id. set (z := ((((0 * 256 + a) * 256 + b) * 256 + c) * 256 + d)%N).
  assert (Q1 : (z / 256 = (a * 256 + b) * 256 + c)%N) by (symmetry; apply (N.div_unique z 256 _ d); unfold z; lia).
  assert (Q2 : (z / 65536 = a * 256 + b)%N) by (symmetry; apply (N.div_unique z 65536 _ (c * 256 + d)); unfold z; lia).
  assert (Q3 : (z / 16777216 = a)%N) by (symmetry; apply (N.div_unique z 16777216 _ ((b * 256 + c) * 256 + d)); unfold z; lia).
  rewrite Q1, Q2, Q3. split; [|unfold z; lia].
  f_equal; [apply N.mod_small; assumption|]. f_equal; [symmetry; apply (N.mod_unique _ 256 a b); lia|].
  f_equal; [symmetry; apply (N.mod_unique _ 256 (a * 256 + b) c); lia|]. f_equal. symmetry; apply (N.mod_unique _ 256 ((a * 256 + b) * 256 + c) d); unfold z; lia.
Qed.
Theorem C32_every_stream : forall max (bytes : list N),
  Forall (fun b => (b < 256)%N) bytes ->
  exists ps tail e,
    bytes = frames ps ++ tail /\ ending max tail e /\
    Forall (fun p => p <> [] /\ List.length p <= max /\ (N.of_nat (List.length p) < 4294967296)%N) ps /\
    forall cap sc, 0 < cap -> healthy sc -> bytes_of sc = bytes ->
      (forall s1 s2, sc = s1 ++ ABlock :: s2 -> outside_lengths (ps ++ [tail]) (List.length (bytes_of s1))) ->
      handle_stream cap max sc = (ps, e).
Proof.
  intros max bytes Hb.
  assert (G : exists ps tail e, bytes = frames ps ++ tail /\ ending max tail e /\
    Forall (fun p => p <> [] /\ List.length p <= max /\ (N.of_nat (List.length p) < 4294967296)%N) ps).
  { remember (List.length bytes) as n eqn:En. revert bytes Hb En. induction n as [n IH] using lt_wf_ind. intros bytes Hb En.
    destruct (Nat.ltb_spec (List.length bytes) 4) as [H4|H4].
    { exists [], bytes, EEof. split; [reflexivity|]. split; [apply end_in_length; assumption|constructor]. }
    destruct (Nat.ltb_spec max (be_dec (firstn 4 bytes))) as [Hm|Hm].
    { exists [], bytes, ETooLarge. split; [reflexivity|]. split; [apply end_too_large; assumption|constructor]. }
    destruct (Nat.eqb_spec (be_dec (firstn 4 bytes)) 0) as [Hz|Hz].
    { exists [], bytes, EEof. split; [reflexivity|]. split; [apply end_empty_payload; assumption|constructor]. }
    destruct (Nat.ltb_spec (List.length bytes) (4 + be_dec (firstn 4 bytes))) as [Hl|Hl].
    { exists [], bytes, EEof. split; [reflexivity|]. split; [apply end_in_payload; assumption|constructor]. }
    set (k := be_dec (firstn 4 bytes)) in *. set (p := firstn k (skipn 4 bytes)). set (rest := skipn k (skipn 4 bytes)).
    assert (E : bytes = firstn 4 bytes ++ p ++ rest) by (unfold p, rest; rewrite !firstn_skipn; reflexivity).
    assert (Lp : List.length p = k) by (unfold p; rewrite firstn_length, skipn_length; lia).
    assert (L4 : List.length (firstn 4 bytes) = 4) by (rewrite firstn_length; lia).
    assert (Lr : List.length rest < n) by (unfold rest; rewrite !skipn_length; lia).
    assert (Hb4 : Forall (fun b => (b < 256)%N) (firstn 4 bytes)) by (rewrite E in Hb; apply Forall_app in Hb; tauto).
    assert (Hbr : Forall (fun b => (b < 256)%N) rest) by (rewrite E in Hb; apply Forall_app in Hb as [_ Hb]; apply Forall_app in Hb; tauto).
    destruct (be_dec_be32 _ L4 Hb4) as [B1 B2].
    destruct (IH _ Lr rest Hbr eq_refl) as (ps & tail & e & E1 & E2 & E3). exists (p :: ps), tail, e. split; [|split; [assumption|]].
    - unfold frames. cbn [map List.concat]. fold (frames ps). unfold frame. rewrite Lp. unfold k. rewrite B1, <- !app_assoc, <- E1. exact E.
    - constructor; [|assumption]. rewrite Lp. split; [intros ->; cbn in Lp; lia|]. split; [assumption|exact B2]. }
  destruct G as (ps & tail & e & E1 & E2 & E3). exists ps, tail, e. split; [assumption|]. split; [assumption|]. split; [assumption|].
  intros cap sc Hc Hh Hs Hcut. apply (handle_stream_spec cap max ps tail); auto. congruence.
Qed.
(** The other half, "every length up to the maximum including zero is accepted",
    fails at zero: an empty payload is taken for the end of the stream, and what
    follows it is lost. *)
Theorem C32_empty_payload_refuted : exists cap max ps sc,
  0 < cap /\ Forall (fun p => List.length p <= max) ps /\ healthy sc /\ bytes_of sc = frames ps /\
  handle_stream cap max sc = ([], EEof) /\ List.length ps = 2.
Proof.
  exists 16, 100, [[]; [7]%N], [AData [0; 0; 0; 0; 0; 0; 0; 1; 7]%N].
  split; [lia|]. split; [constructor; [cbn; lia|constructor; [cbn; lia|constructor]]|].
  split; [repeat constructor; discriminate|]. repeat split.
Qed.
(** this happens wherever the empty payload stands *)
Theorem C32_empty_payload_ends_stream : forall cap max ps qs sc,
  0 < cap ->
  Forall (fun p => p <> [] /\ List.length p <= max /\ (N.of_nat (List.length p) < 4294967296)%N) ps ->
  healthy sc -> bytes_of sc = frames (ps ++ [] :: qs) ->
  (forall s1 s2, sc = s1 ++ ABlock :: s2 -> outside_lengths (ps ++ [] :: qs) (List.length (bytes_of s1))) ->
  handle_stream cap max sc = (ps, EEof).
Proof.
  intros cap max ps qs sc Hc Hp Hh Hb Hcut. apply (handle_stream_spec cap max ps (frames ([] :: qs))); auto.
  - apply end_empty_payload; [|reflexivity]. unfold frames. cbn. lia.
  - rewrite Hb. unfold frames. rewrite map_app, concat_app. reflexivity.
  - intros s1 s2 E before p after Ep. destruct (list_eq_dec (list_eq_dec N.eq_dec) after []) as [->|Ha].
    + apply app_inj_tail in Ep as [<- _]. apply (Hcut s1 s2 E ps [] qs). reflexivity.
    + destruct (exists_last Ha) as (a' & x & ->). rewrite app_comm_cons, app_assoc in Ep. apply app_inj_tail in Ep as [-> _].
      apply (Hcut s1 s2 E before p (a' ++ [] :: qs)). rewrite app_comm_cons, app_assoc. reflexivity.
Qed.
Theorem C32_up_to_maximum_partial : forall cap max p,
  0 < cap -> 0 < List.length p <= max -> (N.of_nat (List.length p) < 4294967296)%N ->
  handle_stream cap max [AData (frame p)] = ([p], EEof).
Proof.
  intros cap max p Hc Hl Hn. apply (C31_no_wait cap max [p] [frame p]).
  - assumption.
  - constructor; [|constructor]. split; [intros ->; cbn in Hl; lia|]. split; [lia|assumption].
  - reflexivity.
Qed.
Example C32_ex :
  handle_stream 16 3 [AData [0; 0; 0; 3; 7; 8; 9]%N] = ([[7; 8; 9]]%N, EEof) /\
  handle_stream 16 2 [AData [0; 0; 0; 3; 7; 8; 9]%N] = ([], ETooLarge) /\
  handle_stream 16 2 [AData [0; 0; 0; 1; 5; 0; 0; 0; 3]%N] = ([[5]]%N, ETooLarge).
Proof. repeat split. Qed.
Print Assumptions C32_over_long_rejected.
Print Assumptions C32_every_stream.
Print Assumptions C32_empty_payload_refuted.
Print Assumptions C32_empty_payload_ends_stream.
Print Assumptions C32_up_to_maximum_partial.
