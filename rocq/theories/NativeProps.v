(** * Properties C42 (native part), C50, C60, C71, C72: the native protocol. *)
From Verif Require Import Base BaseFacts FloatFacts TelemetryModel TelemetrySpec TelemetryProofs TelemetryProps QExample FiltersModel FiltersProofs
  ProtoModel ProtoProofs FramingModel FramingSpec FramingProofs FramingProps NativeModel NativeSpec NativeProofs.
Open Scope string_scope. Open Scope list_scope. Open Scope nat_scope.

(** ** C60: from payloads to events *)
Theorem C60_native_source : forall `{Q : QLib} utf8 now (is : list item),
  Forall (item_ok utf8) is ->
  (forall p, In (IPoint p) is -> w_method p = Some MHistogram -> h_new [fofZ 1; fofZ 10; fofZ 100; fofZ 1000] <> None) ->
  exists points lines,
    handle_payload utf8 now (List.concat (map item_bytes is)) = (points ++ lines, NOk) /\
    Forall2 point_becomes (filter (fun p => match w_samples p with [] => false | _ => true end) (item_points is)) points /\
    Forall2 line_becomes (item_lines is) lines.
Proof.
  intros Q utf8 now is H Hh. unfold handle_payload. rewrite read_items by assumption. rewrite Forall_forall in H.
  destruct (point_events_ok now (item_points is)) as (evs & E & F).
  - apply Forall_forall. intros p Hp. unfold item_points in Hp. apply in_flat_map in Hp as (i & Hi & Hp). specialize (H i Hi). destruct i; cbn in Hp; try contradiction.
    destruct Hp as [<-|[]]. apply H.
  - intros p Hp Hm. unfold item_points in Hp. apply in_flat_map in Hp as (i & Hi & Hp). destruct i as [q| |]; cbn in Hp; try contradiction. destruct Hp as [->|[]].
    apply (Hh p Hi). destruct (w_method p); cbn in Hm; congruence.
  - rewrite E. exists evs, (map line_event (item_lines is)). split; [reflexivity|]. split; [exact F|].
    assert (G : Forall (fun l => tm_ok (wl_meta l)) (item_lines is)).
    { apply Forall_forall. intros l Hl. unfold item_lines in Hl. apply in_flat_map in Hl as (i & Hi & Hl). specialize (H i Hi). destruct i; cbn in Hl; try contradiction. destruct Hl as [<-|[]]. apply H. }
    clear -G. induction G; cbn; constructor; [apply line_event_ok; assumption|assumption].
Qed.
(** A payload that is refused sends nothing. *)
Theorem C60_refused_sends_nothing : forall `{Q : QLib} utf8 now bs evs,
  handle_payload utf8 now bs = (evs, NBad) -> evs = [].
Proof.
  intros Q utf8 now bs evs. unfold handle_payload. destruct (parse_payload utf8 bs) as [[ps ls]|]; [|intros [= <-]; reflexivity].
  destruct (point_events now ps) as [es []]; discriminate.
Qed.
(** One bad byte where a field should start and the whole payload is refused, the good
    points and lines before it too: field number 0, or a wire type that does not exist. *)
Theorem C60_bad_field_refuses_all : forall `{Q : QLib} utf8 now (is : list item) b rest,
  Forall (item_ok utf8) is -> (b < 128)%N -> (b / 8 = 0 \/ b mod 8 = 6 \/ b mod 8 = 7)%N ->
  handle_payload utf8 now (List.concat (map item_bytes is) ++ b :: rest) = ([], NBad).
Proof.
  intros Q utf8 now is b rest H Hb Hbad. unfold handle_payload, parse_payload, read_message.
  replace (map item_bytes is) with (map write_field (map item_field is)) by (rewrite map_map; apply map_ext; intros; symmetry; apply item_bytes_field).
  rewrite parse_fields_bad; [reflexivity| |discriminate|].
  - apply Forall_map. eapply Forall_impl; [|exact H]. intros i. apply item_field_ok.
  - unfold read_field, read_varint32. cbn [unvarint]. replace (b <? 128)%N with true by (symmetry; apply N.ltb_lt; exact Hb). rewrite (N.mod_small b (2 ^ 32)) by lia.
    destruct Hbad as [-> |[-> | ->]]; destruct (b / 8 =? 0)%N; reflexivity.
Qed.
(** The full claim does not hold for histogram points: when the library refuses the
    default bounds the handler dies; the bounds sent along are never looked at. *)
Theorem C60_bounds_ignored : forall `{Q : QLib} now p bs,
  point_event now (mkWPoint (w_name p) (w_samples p) (w_persisted p) (w_method p) (w_meta p) (w_ts p) bs) = point_event now p.
Proof. reflexivity. Qed.
(** One text that is not UTF-8 and the whole payload is refused, the good points and
    lines before and after it too. *)
Theorem C60_bad_text_refuses_all : forall `{Q : QLib} utf8 now (is is' : list item) (i : item),
  Forall (item_ok utf8) is -> Forall (item_ok utf8) is' -> item_fits i -> item_bad_text utf8 i ->
  handle_payload utf8 now (List.concat (map item_bytes (is ++ i :: is'))) = ([], NBad).
Proof. intros Q utf8 now is is' i H H' HF HB. unfold handle_payload. rewrite bad_text_payload by assumption. reflexivity. Qed.
Definition anyutf (_ : list N) := true.
Definition xwp : wpoint := mkWPoint (Some "a") [fone; fofZ 2] None (Some MSum) [("k", "v")] (Some 5000%Z) [].
Example C60_ex :
  (exists b, handle_payload (Q := xQ) anyutf 7 (List.concat (map item_bytes [ILine (mkWLine (Some "f") (Some "x") [] (Some (-3000)%Z)); IPoint xwp; IPoint wpoint_new; IOther 9 (WVarint 3)])) =
    ([ETelemetry (mkTelemetry "a" (VSum (fofZ 3)) false (Some [("k", "v")]) 5 None None); ELog (mkLog (-3) "f" "x" [] None)], NOk) /\ b = true) /\
  handle_payload (Q := xQ) anyutf 7 [18; 200; 1; 1]%N = ([], NBad) /\
  handle_payload (Q := xQ) anyutf 7 (item_bytes (IPoint xwp) ++ [0; 1]%N) = ([], NBad).
Proof. split; [exists true; split|split]; reflexivity. Qed.
Print Assumptions C60_native_source.
Print Assumptions C60_refused_sends_nothing. Print Assumptions C60_bad_field_refuses_all.
Print Assumptions C60_bounds_ignored.
(** ASCII only *)
Definition asciiutf (l : list N) := forallb (fun b => (b <? 128)%N) l.
Example C60_bad_text_ex : item_fits (ILine (mkWLine (Some (String (Ascii.ascii_of_nat 255) "")) (Some "x") [] None)) /\
  item_bad_text asciiutf (ILine (mkWLine (Some (String (Ascii.ascii_of_nat 255) "")) (Some "x") [] None)).
Proof. split; [vm_compute; reflexivity|]. left. eexists. split; reflexivity. Qed.
Print Assumptions C60_bad_text_refuses_all.

(** ** C50: from the native sink to the native source *)
Section C50.
Context `{Q : QLib}.
Variable utf8 : list N -> bool.
(** a batch the pair can carry: at least one event, lengths right, at most [max] bytes *)
Definition good_batch (max : nat) (d : tagmap) (b : list event) : Prop :=
  b <> [] /\ Forall (sendable utf8) b /\ Forall (fun e => count_fits (event_count e)) b /\ List.length (sink_frame d b) <= 4 + max.
Lemma frame_len p : List.length (frame p) = 4 + List.length p.
Proof. unfold frame. rewrite app_length. reflexivity. Qed.
Lemma skip_frame p : skipn 4 (frame p) = p.
Proof. reflexivity. Qed.
Lemma good_payload max d b : meta_ok utf8 d -> good_batch max d b ->
  sink_frame d b = frame (batch_payload d b) /\ batch_payload d b <> [] /\ List.length (batch_payload d b) <= max.
Proof.
  intros Hd (H1 & H2 & H3 & H4). rewrite (sink_frame_right utf8 d b H3) in *. split; [reflexivity|]. rewrite frame_len in H4. split; [|lia].
  destruct b as [|e b]; [congruence|]. inversion H2 as [|? ? He _]; subst. unfold batch_payload, payload_bytes. intros E. apply app_eq_nil in E as [E1 E2].
  destruct e as [t|l| | |]; try contradiction.
  - change (sink_points d (ETelemetry t :: b)) with (sink_point d t :: sink_points d b) in E1. cbn [map List.concat] in E1. apply app_eq_nil in E1 as [E1 _]. apply (f_equal (@List.length N)) in E1. apply (f_equal N.of_nat) in E1. rewrite (nested_len utf8) in E1 by lia. pose proof (varint_pos (point_size (sink_point d t))). cbn in E1. lia.
  - change (sink_lines d (ELog l :: b)) with (sink_line d l :: sink_lines d b) in E2. cbn [map List.concat] in E2. apply app_eq_nil in E2 as [E2 _]. apply (f_equal (@List.length N)) in E2. apply (f_equal N.of_nat) in E2. rewrite (nested_len utf8) in E2 by lia. pose proof (varint_pos (line_size (sink_line d l))). cbn in E2. lia.
Qed.
Lemma consume_good max now d e batches rest : meta_ok utf8 d -> (N.of_nat max < 2 ^ 32)%N -> Forall (good_batch max d) batches ->
  exists evs, consume utf8 now (map (batch_payload d) batches ++ rest) e = (let '(evs', e') := consume utf8 now rest e in (evs ++ evs', e')) /\
    Forall2 (arrives d) (flat_map in_wire_order batches) evs.
Proof.
  intros Hd Hmax H. induction H as [|b batches Hb H IH].
  - exists []. split; [|constructor]. cbn [map List.app]. destruct (consume utf8 now rest e); reflexivity.
  - destruct IH as (evs & E & F). destruct (good_payload max d b Hd Hb) as (_ & _ & HL). destruct Hb as (_ & H2 & H3 & _).
    destruct (batch_handled utf8 now d b Hd H2 H3 ltac:(lia)) as (out & E1 & F1).
    exists (out ++ evs). split; [|cbn [flat_map]; apply Forall2_app; assumption]. cbn [map List.app consume]. rewrite E1, E.
    destruct (consume utf8 now rest e). rewrite app_assoc. reflexivity.
Qed.
Lemma good_frames max d batches : meta_ok utf8 d -> Forall (good_batch max d) batches ->
  List.concat (map (sink_frame d) batches) = frames (map (batch_payload d) batches) /\
  Forall (fun p => p <> [] /\ List.length p <= max) (map (batch_payload d) batches) /\
  map (fun b => skipn 4 (sink_frame d b)) batches = map (batch_payload d) batches.
Proof.
  intros Hd H. unfold frames. rewrite map_map. induction H as [|b batches Hb H IH]; [repeat split; constructor|]. destruct IH as (E1 & E2 & E3). cbn [map List.concat].
  destruct (good_payload max d b Hd Hb) as (-> & Hne & HL). rewrite E1, E3. split; [reflexivity|]. split; [constructor; [split; assumption|assumption]|]. rewrite skip_frame. reflexivity.
Qed.
Lemma lengths_32 max ps : (N.of_nat max < 2 ^ 32)%N -> Forall (fun p : list N => p <> [] /\ List.length p <= max) ps ->
  Forall (fun p : list N => p <> [] /\ List.length p <= max /\ (N.of_nat (List.length p) < 4294967296)%N) ps.
Proof. intros Hmax H. eapply Forall_impl; [|exact H]. cbv beta. intros p [H1 H2]. split; [assumption|]. split; [assumption|]. change 4294967296%N with (2 ^ 32)%N. lia. Qed.
End C50.

(** Everything the sink writes in its flushes arrives, batch by batch, points before
    lines, in order, with name, kind, value, persistence, timestamp and tags; however
    the bytes are split, as long as the socket never runs dry inside a length field
    (C31).  Missing for the full claim: see the refutations below. *)
Theorem C50_native_pair_partial : forall `{Q : QLib} utf8 cap max now d batches sc,
  0 < cap -> (N.of_nat max < 2 ^ 32)%N -> meta_ok utf8 d -> Forall (good_batch utf8 max d) batches ->
  healthy sc -> bytes_of sc = List.concat (map (sink_frame d) batches) ->
  (forall s1 s2, sc = s1 ++ ABlock :: s2 -> outside_lengths (map (fun b => skipn 4 (sink_frame d b)) batches) (List.length (bytes_of s1))) ->
  exists evs, native_stream utf8 cap max now sc = (evs, HStream EEof) /\ Forall2 (arrives d) (flat_map in_wire_order batches) evs.
Proof.
  intros Q utf8 cap max now d batches sc Hc Hmax Hd H Hh Hb Hcut. destruct (good_frames utf8 max d batches Hd H) as (E1 & E2 & E3). rewrite E3 in Hcut.
  destruct (consume_good utf8 max now d EEof batches [] Hd Hmax H) as (evs & E & F). exists evs. split; [|exact F].
  rewrite (native_stream_consume utf8 cap max now sc (map (batch_payload d) batches) EEof).
  - rewrite app_nil_r in E. rewrite E. cbn [consume]. rewrite app_nil_r. reflexivity.
  - apply C31_framing_partial; try assumption; [apply lengths_32; assumption|]. rewrite Hb. exact E1.
Qed.
(** The sink puts exactly these bytes on a connection that takes them. *)
Fixpoint run_batches `{Q : QLib} (early : nat -> nat) (bs : list (list event)) (s : nsink) : option nsink :=
  match bs with
  | [] => Some s
  | b :: r => match native_flush early [] (fold_left (fun s e => native_deliver e s) b s) with
              | Some s' => run_batches early r s'
              | None => None
              end
  end.
Lemma deliver_all `{Q : QLib} b : forall s, fold_left (fun s e => native_deliver e s) b s = mkNSink (n_tags s) (n_buffer s ++ b) (n_attempts s) (n_stream s) (n_closed s).
Proof. induction b as [|e b IH]; intros s; cbn [fold_left]; [rewrite app_nil_r; destruct s; reflexivity|]. rewrite IH. unfold native_deliver. cbn. rewrite <- app_assoc. reflexivity. Qed.
Theorem C50_sink_writes_batches : forall `{Q : QLib} early d got left att closed batches,
  (forall n, early n <= n) -> List.length (List.concat (map (sink_frame d) batches)) <= left ->
  exists left', run_batches early batches (mkNSink d [] att (Some (mkNConn got left)) closed) =
    Some (mkNSink d [] att (Some (mkNConn (got ++ List.concat (map (sink_frame d) batches)) left')) closed).
Proof.
  intros Q early d got left att closed batches He. revert got left. induction batches as [|b batches IH]; intros got left HL.
  - exists left. cbn. rewrite app_nil_r. reflexivity.
  - cbn [run_batches map List.concat] in *. rewrite app_length in HL. rewrite deliver_all. cbn [n_tags n_buffer n_attempts n_stream n_closed List.app].
    unfold native_flush, send_loop, attempt. cbn [n_tags n_buffer n_attempts n_stream n_closed k_left].
    set (f := sink_frame d b) in *. specialize (He (List.length f)). destruct (Nat.leb_spec (early (List.length f)) left); [|lia].
    unfold conn_write. cbn [k_got k_left]. rewrite firstn_all2 by lia. destruct (IH (got ++ f) (left - List.length f)) as (left' & E); [lia|].
    exists left'. rewrite E, <- app_assoc. reflexivity.
Qed.

(** ** C50: what is lost *)
Lemma loss_stream `{Q : QLib} utf8 cap max now d batches bad rest sc : 0 < cap -> (N.of_nat max < 2 ^ 32)%N -> meta_ok utf8 d -> Forall (good_batch utf8 max d) batches ->
  bad <> [] -> List.length bad <= max -> handle_payload utf8 now bad = ([], NBad) -> Forall (fun b => (b < 256)%N) rest ->
  List.concat sc = List.concat (map (sink_frame d) batches) ++ frame bad ++ rest ->
  exists evs, native_stream utf8 cap max now (map AData sc) = (evs, HParse) /\ Forall2 (arrives d) (flat_map in_wire_order batches) evs.
Proof.
  intros Hc Hmax Hd H B1 B2 B3 Hr Hb. destruct (good_frames utf8 max d batches Hd H) as (E1 & E2 & _). rewrite E1 in Hb.
  destruct (C32_every_stream max rest Hr) as (ps & tail & e & Er & Ht & Hp & _).
  assert (Hs : handle_stream cap max (map AData sc) = (map (batch_payload d) batches ++ bad :: ps, e)).
  { apply (handle_stream_spec cap max _ tail e).
    - assumption.
    - apply Forall_app. split; [apply lengths_32; assumption|]. constructor; [|exact Hp]. split; [assumption|]. split; [assumption|]. change 4294967296%N with (2 ^ 32)%N. lia.
    - assumption.
    - apply Forall_map. apply Forall_forall. intros x _. split; discriminate.
    - unfold bytes_of. rewrite map_map, map_id, Hb, Er. unfold frames. rewrite map_app, concat_app. cbn [map List.concat]. rewrite <- !app_assoc. reflexivity.
    - intros s1 s2 E. exfalso. assert (Hin : In ABlock (map AData sc)) by (rewrite E; apply in_or_app; right; left; reflexivity).
      apply in_map_iff in Hin as (x & Hx & _). discriminate. }
  destruct (consume_good utf8 max now d e batches (bad :: ps) Hd Hmax H) as (evs & E & F). exists evs. split; [|exact F].
  rewrite (native_stream_consume utf8 cap max now _ _ _ Hs), E. cbn [consume]. rewrite B3, app_nil_r. reflexivity.
Qed.
(** Samples: with 16 to 127 samples in a point (or 2048 to 16383) the computed length
    of the point is one byte too small.  The source then refuses the whole payload and
    closes the connection: every event of that flush, and everything after it on that
    connection, is lost. *)
Theorem C50_many_samples_lost : forall `{Q : QLib} utf8 cap max now d batches b later sc,
  0 < cap -> (N.of_nat max < 2 ^ 32)%N -> meta_ok utf8 d -> Forall (good_batch utf8 max d) batches ->
  Forall (sendable utf8) b -> Forall (fun e => count_fits (event_count e) \/ count_misfits (event_count e)) b ->
  Exists (fun e => count_misfits (event_count e)) b -> List.length (sink_frame d b) <= 4 + max -> (N.of_nat max < 2 ^ 32 - 1)%N ->
  Forall (fun b => (b < 256)%N) (sink_frame d b ++ later) ->
  List.concat sc = List.concat (map (sink_frame d) batches) ++ sink_frame d b ++ later ->
  exists evs, native_stream utf8 cap max now (map AData sc) = (evs, HParse) /\ Forall2 (arrives d) (flat_map in_wire_order batches) evs.
Proof.
  intros Q utf8 cap max now d batches b later sc Hc Hmax Hd H Hs Hcnt Hex HL Hmax' Hby Hb.
  set (S := payload_size (sink_points d b) (sink_lines d b)) in *. set (bad := firstn (N.to_nat S) (batch_payload d b)).
  assert (HS : (S < N.of_nat (List.length (batch_payload d b)))%N /\ (0 < S)%N).
  { unfold S, batch_payload. clear -Hcnt Hex utf8.
    assert (Hp : Exists (fun p => (point_size p < N.of_nat (List.length (point_bytes p)))%N) (sink_points d b)).
    { unfold sink_points. induction Hex as [e evs He|e evs _ IH]; cbn [flat_map].
      - destruct e as [t| | | |]; try (unfold count_misfits in He; cbn [event_count] in He; lia). left. rewrite point_len. change (w_samples (sink_point d t)) with (t_samples t). rewrite (misfits_extra (List.length (t_samples t)) He). lia.
      - inversion Hcnt; subst. specialize (IH H2). apply Exists_exists in IH as (x & Hx & Hx'). apply Exists_exists. exists x. split; [apply in_or_app; right; exact Hx|exact Hx']. }
    unfold payload_size, payload_bytes. rewrite app_length, Nat2N.inj_add, !concat_len, !map_map.
    assert (L2 : sumN (map (fun l => nested_size (line_size l)) (sink_lines d b)) = sumN (map (fun x => N.of_nat (List.length (nested_bytes 3 (line_size x) (line_bytes x)))) (sink_lines d b))).
    { f_equal. apply map_ext. intros l. rewrite (nested_len utf8) by lia. rewrite line_len. reflexivity. }
    rewrite L2. 
    assert (L1 : forall ps, (sumN (map (fun p => nested_size (point_size p)) ps) <= sumN (map (fun x => N.of_nat (List.length (nested_bytes 2 (point_size x) (point_bytes x)))) ps))%N).
    { induction ps as [|p ps IH]; [cbn; lia|]. unfold sumN in *. cbn [map fold_right]. rewrite (nested_len utf8) by lia. rewrite point_len. unfold nested_size at 1. lia. }
    assert (L3 : (sumN (map (fun p => nested_size (point_size p)) (sink_points d b)) < sumN (map (fun x => N.of_nat (List.length (nested_bytes 2 (point_size x) (point_bytes x)))) (sink_points d b)))%N /\ (0 < sumN (map (fun p => nested_size (point_size p)) (sink_points d b)))%N).
    { induction Hp as [p ps Hx|p ps Hx IH]; unfold sumN in *; cbn [map fold_right]; rewrite (nested_len utf8) by lia; unfold nested_size at 1 3; pose proof (L1 ps) as L1'; unfold sumN in L1'.
      - split; lia.
      - destruct IH. rewrite point_len. split; lia. }
    lia. }
  assert (Ef : sink_frame d b = frame bad ++ skipn (N.to_nat S) (batch_payload d b)).
  { unfold sink_frame, frame. fold S. fold (batch_payload d b). unfold bad at 1. rewrite firstn_length_le by lia. rewrite <- be4_32, N2Nat.id, <- app_assoc. unfold bad. rewrite firstn_skipn. reflexivity. }
  assert (Lb : List.length bad = N.to_nat S) by (unfold bad; rewrite firstn_length_le; lia).
  assert (LF : List.length (sink_frame d b) = 4 + List.length (batch_payload d b)) by (unfold sink_frame, batch_payload; rewrite app_length; reflexivity).
  apply (loss_stream utf8 cap max now d batches bad (skipn (N.to_nat S) (batch_payload d b) ++ later) sc); try assumption.
  - intros E. rewrite E in Lb. cbn in Lb. lia.
  - lia.
  - apply misfit_batch; try assumption. lia.
  - rewrite Ef, <- app_assoc in Hby. apply Forall_app in Hby. tauto.
  - rewrite Hb, Ef, <- !app_assoc. reflexivity.
Qed.
(** Length: a flush of more than [max] bytes is refused altogether. *)
Theorem C50_long_flush_lost : forall `{Q : QLib} utf8 cap max now d batches b later sc,
  0 < cap -> (N.of_nat max < 2 ^ 32)%N -> meta_ok utf8 d -> Forall (good_batch utf8 max d) batches ->
  Forall (fun e => count_fits (event_count e)) b -> 4 + max < List.length (sink_frame d b) -> (N.of_nat (List.length (sink_frame d b)) < 2 ^ 32)%N ->
  List.concat sc = List.concat (map (sink_frame d) batches) ++ sink_frame d b ++ later ->
  exists evs, native_stream utf8 cap max now (map AData sc) = (evs, HStream ETooLarge) /\ Forall2 (arrives d) (flat_map in_wire_order batches) evs.
Proof.
  intros Q utf8 cap max now d batches b later sc Hc Hmax Hd H Hcnt HL HL' Hb. destruct (good_frames utf8 max d batches Hd H) as (E1 & E2 & _).
  rewrite (sink_frame_right utf8 d b Hcnt) in *. rewrite frame_len in *.
  destruct (consume_good utf8 max now d ETooLarge batches [] Hd Hmax H) as (evs & E & F). exists evs. split; [|exact F]. rewrite app_nil_r in E. cbn [consume] in E. rewrite app_nil_r in E.
  rewrite <- E. apply native_stream_consume. apply (C32_over_long_rejected cap max _ (frame (batch_payload d b) ++ later)).
  - assumption.
  - apply lengths_32; assumption.
  - rewrite app_length, frame_len. lia.
  - change (firstn 4 (frame (batch_payload d b) ++ later)) with (be32 (List.length (batch_payload d b))). rewrite be32_dec; [lia|]. change 4294967296%N with (2 ^ 32)%N. lia.
  - apply Forall_map. apply Forall_forall. intros x _. split; discriminate.
  - unfold bytes_of. rewrite map_map, map_id, Hb, E1. reflexivity.
  - intros s1 s2 Es. exfalso. assert (Hin : In ABlock (map AData sc)) by (rewrite Es; apply in_or_app; right; left; reflexivity).
    apply in_map_iff in Hin as (x & Hx & _). discriminate.
Qed.
(** With the limit of the code: frames of up to a mebibyte behind their length arrive, longer
    ones are refused. *)
Theorem C50_mebibyte : forall `{Q : QLib} utf8 cap now d batches b later sc,
  0 < cap -> meta_ok utf8 d -> Forall (good_batch utf8 native_max d) batches ->
  b <> [] -> Forall (sendable utf8) b -> Forall (fun e => count_fits (event_count e)) b ->
  (N.of_nat (List.length (sink_frame d b)) < 2 ^ 32)%N ->
  List.concat sc = List.concat (map (sink_frame d) batches) ++ sink_frame d b ++ later ->
  ((N.of_nat (List.length (sink_frame d b)) <= 4 + 1048576)%N -> good_batch utf8 native_max d b) /\
  ((4 + 1048576 < N.of_nat (List.length (sink_frame d b)))%N ->
   exists evs, native_stream utf8 cap native_max now (map AData sc) = (evs, HStream ETooLarge) /\ Forall2 (arrives d) (flat_map in_wire_order batches) evs).
Proof.
  intros Q utf8 cap now d batches b later sc Hc Hd H Hb1 Hb2 Hb3 HL E.
  assert (M : N.of_nat native_max = 1048576%N) by (unfold native_max; apply N2Nat.id). revert H M. generalize native_max. intros mx H M. split; intros Hl.
  - split; [exact Hb1|]. split; [exact Hb2|]. split; [exact Hb3|]. lia.
  - apply (C50_long_flush_lost utf8 cap mx now d batches b later sc); [exact Hc|lia|exact Hd|exact H|exact Hb3|lia|exact HL|exact E].
Qed.
(** hence the full claim is false: one SUMMARIZE point with 16 samples *)
Definition x16 : @telemetry xQ := mkTelemetry "s" (VQuant (repeat fone 16) (fofZ 16)) false None 5 None None.
Theorem C50_refuted : exists (t : @telemetry xQ) max sc,
  sendable (Q := xQ) anyutf (ETelemetry t) /\ t_kind t = MSummarize /\ bytes_of sc = sink_frame [] [ETelemetry t] /\ healthy sc /\
  List.length (sink_frame [] [ETelemetry t]) <= 4 + max /\ native_stream anyutf 64 max 0 sc = ([], HParse).
Proof.
  exists x16, 200, [AData (sink_frame [] [ETelemetry x16])].
  split; [split; [reflexivity|]; split; [discriminate|]; split; [discriminate|]; split; [apply Forall_forall; intros x Hx; apply repeat_spec in Hx as ->; reflexivity|]; split; [cbn; lia|split; exact I]|].
  split; [reflexivity|]. split; [apply app_nil_r|]. split; [constructor; [split; discriminate|constructor]|]. split; [vm_compute; lia|reflexivity].
Qed.
Definition xb : list (@event xQ) := [ELog (mkLog 9 "f" "hello" [] (Some [("a", "1")])); ETelemetry (mkTelemetry "m" (VQuant [fone; fofZ 3] (fofZ 4)) true (Some [("a", "1"); ("b", "2")]) (-7) None None)].
Example C50_ex :
  good_batch (Q := xQ) anyutf 200 [("b", "9"); ("c", "3")] xb /\
  native_stream (Q := xQ) anyutf 64 200 0 [AData (sink_frame [("b", "9"); ("c", "3")] xb)] =
    ([ETelemetry (mkTelemetry "m" (VQuant [fone; fofZ 3] (fofZ 4)) true (Some [("a", "1"); ("b", "2"); ("c", "3")]) (-7) None None);
      ELog (mkLog 9 "f" "hello" [] (Some [("a", "1"); ("b", "9"); ("c", "3")]))], HStream EEof).
Proof.
  split; [|reflexivity]. split; [discriminate|]. split.
  - constructor; [|constructor; [|constructor]].
    + split; [reflexivity|]. split; [reflexivity|]. split; [cbn; lia|]. split; [repeat constructor; cbn; tauto|repeat constructor].
    + split; [reflexivity|]. split; [discriminate|]. split; [discriminate|]. split; [repeat constructor|]. split; [cbn; lia|].
      split; [|repeat constructor]. cbn. constructor; [cbn; intros [H|[]]; discriminate|repeat constructor; cbn; tauto].
  - split; [repeat constructor; left; cbn; lia|]. vm_compute. lia.
Qed.
Print Assumptions C50_native_pair_partial.
Print Assumptions C50_sink_writes_batches.
Print Assumptions C50_many_samples_lost.
Print Assumptions C50_long_flush_lost. Print Assumptions C50_mebibyte.
(** A histogram does not arrive either: what is sent for it are the counts of its bins,
    and the source takes these for samples: the histogram that arrives has the
    default bounds and as many samples as the one sent had bins. *)
Lemma insert_all `{Q : QLib} ys : forall t h, t_value t = VHist h -> t_override_sum t = None -> t_override_count t = None ->
  exists t', fold_left (fun o y => match o with Some t => t_insert y t | None => None end) ys (Some t) = Some t' /\ t_value t' = VHist (fold_left h_insert ys h).
Proof.
  induction ys as [|y ys IH]; intros t h Ev Es Ec; cbn [fold_left]; [exists t; split; [reflexivity|exact Ev]|].
  unfold t_insert at 2. rewrite Es, Ec, Ev. apply IH; [reflexivity| |]; assumption.
Qed.
Lemma inserted_count `{Q : QLib} ys : forall h, h_count (fold_left h_insert ys h) = (h_count h + N.of_nat (List.length ys))%N.
Proof. induction ys as [|y ys IH]; intros h; cbn [fold_left List.length]; [lia|]. rewrite IH, h_insert_count. lia. Qed.
Theorem C50_histogram_lost : forall `{Q : QLib} now d t h h0,
  t_value t = VHist h -> h_bins h <> [] -> h_new [fofZ 1; fofZ 10; fofZ 100; fofZ 1000] = Some h0 ->
  exists t' h', point_event now (sink_point d t) = Some [ETelemetry t'] /\ t_value t' = VHist h' /\
    h' = fold_left h_insert (map (fun b => fofZ (Z.of_N (snd b))) (h_bins h)) h0 /\ h_count h' = N.of_nat (List.length (h_bins h)).
Proof.
  intros Q now d t h h0 Ev Hb Eh. unfold point_event, sink_point. cbn [w_samples w_name w_method w_persisted w_ts w_meta odefault].
  assert (Es : t_samples t = map (fun b => fofZ (Z.of_N (snd b))) (h_bins h)) by (unfold t_samples; rewrite Ev; reflexivity).
  assert (Ek : t_kind t = MHistogram) by (unfold t_kind; rewrite Ev; reflexivity). rewrite Es, Ek. remember (map (fun b => fofZ (Z.of_N (snd b))) (h_bins h)) as zs eqn:Ez.
  assert (El : List.length zs = List.length (h_bins h)) by (rewrite Ez; apply map_length). destruct zs as [|y ys]; [destruct (h_bins h); [contradiction|discriminate]|].
  unfold harden. cbn. rewrite Eh. match goal with |- context [fold_left _ ys (Some ?t0)] => destruct (insert_all ys t0 (h_insert h0 y) Logic.eq_refl Logic.eq_refl Logic.eq_refl) as (t' & E & Ev') end.
  rewrite E. exists t', (fold_left h_insert ys (h_insert h0 y)). split; [reflexivity|]. split; [exact Ev'|]. split; [reflexivity|].
  rewrite <- El, inserted_count, h_insert_count, (h_new_count _ _ Eh). cbn [List.length]. lia.
Qed.
Example C50_ex_histogram : option_map (map (fun e => match e with ETelemetry t => option_map (map snd) (t_bins t) | _ => None end))
  (point_event (Q := xQ) 0 (sink_point [] (mkTelemetry "h" (@VHist xQ (mkXHist [fofZ 5; fofZ 7] [2000; 20; 3]%N None)) false None 0 None None))) = Some [Some [0; 1; 1; 0; 1]%N].
Proof. vm_compute. reflexivity. Qed.
Print Assumptions C50_histogram_lost.
Print Assumptions C50_refuted.

(** ** C42, native sink *)

(** The claim fails: with a write buffer between, flush returns although the last
    part of the frame has not been taken; a connection that takes nothing is
    enough when the frame fits in the buffer. *)
Theorem C42_native_refuted : forall `{Q : QLib} early d b got att closed,
  (forall n, 0 < n -> early n < n) -> b <> [] ->
  exists s', native_flush early [] (mkNSink d b att (Some (mkNConn got (early (List.length (sink_frame d b))))) closed) = Some s' /\
    n_buffer s' = [] /\ n_closed s' = closed /\
    n_stream s' = Some (mkNConn (got ++ firstn (early (List.length (sink_frame d b))) (sink_frame d b)) 0) /\
    early (List.length (sink_frame d b)) < List.length (sink_frame d b).
Proof.
  intros Q early d b got att closed He Hb. assert (L : 0 < List.length (sink_frame d b)) by (unfold sink_frame; rewrite app_length; cbn; lia).
  specialize (He _ L). eexists. split; [unfold native_flush, send_loop, attempt; cbn [n_stream n_tags n_buffer n_attempts n_closed k_left]; rewrite Nat.leb_refl; reflexivity|].
  cbn [n_buffer n_closed n_stream]. split; [reflexivity|]. split; [reflexivity|]. split; [|assumption].
  unfold conn_write. cbn [k_got k_left]. do 2 f_equal. lia.
Qed.
(** A dead connection is never noticed while the flushes fit in the buffer: nothing
    is sent, nothing is retried, no new connection is made, and all points are gone. *)
Theorem C42_native_dead_connection : forall `{Q : QLib} early d got att closed batches,
  (forall b, In b batches -> early (List.length (sink_frame d b)) = 0) ->
  run_batches early batches (mkNSink d [] att (Some (mkNConn got 0)) closed) = Some (mkNSink d [] att (Some (mkNConn got 0)) closed).
Proof.
  intros Q early d got att closed batches. induction batches as [|b batches IH]; intros H; [reflexivity|].
  cbn [run_batches]. rewrite deliver_all. unfold native_flush, send_loop, attempt. cbn [n_stream n_tags n_buffer n_attempts n_closed k_left List.app].
  rewrite (H b (or_introl eq_refl)). cbn [Nat.leb]. unfold conn_write. cbn [k_got k_left firstn]. rewrite app_nil_r, Nat.sub_0_l. apply IH. intros b' Hb'. apply H. right. exact Hb'.
Qed.
(** What holds: every attempt writes the same frame; connections given up took a
    proper prefix of it; flush returns with the buffer empty after an attempt of
    which the connection took at least the reported part, and all of it if it had
    room. *)
Definition took `{Q : QLib} (frame before : list N) (c : nconn) (n : nat) : Prop :=
  k_got c = before ++ firstn n frame /\ k_left c = n - List.length frame.
Theorem C42_native_flush_partial : forall `{Q : QLib} early conns s s',
  native_flush early conns s = Some s' ->
  let frame := sink_frame (n_tags s) (n_buffer s) in
  n_buffer s' = [] /\
  exists lost c old n,
    n_closed s' = n_closed s ++ lost /\ n_stream s' = Some c /\ took frame old c n /\ early (List.length frame) <= n /\
    (lost <> [] \/ n_stream s = None -> old = []) /\
    Forall (fun c => exists old n, took frame old c n /\ n < early (List.length frame)) lost.
Proof.
  intros Q early conns s s' H frame. unfold native_flush in H. fold frame in H.
  assert (G : forall conns s s', n_buffer s = [] -> send_loop early frame s conns = Some s' ->
    n_buffer s' = [] /\ exists lost c old n, n_closed s' = n_closed s ++ lost /\ n_stream s' = Some c /\ took frame old c n /\ early (List.length frame) <= n /\
      (lost <> [] \/ n_stream s = None \/ (exists b, n_stream s = Some (mkNConn [] b)) -> old = []) /\
      Forall (fun c => exists old n, took frame old c n /\ n < early (List.length frame)) lost).
  { clearbody frame. clear. induction conns as [|a conns IH]; intros s s' Hb; cbn [send_loop]; unfold attempt at 1; destruct (n_stream s) as [c|] eqn:Es.
    - destruct (Nat.leb_spec (early (List.length frame)) (k_left c)); [|discriminate]. intros [= <-]. cbn [n_buffer n_closed n_stream]. split; [reflexivity|].
      exists [], (conn_write frame c), (k_got c), (k_left c). rewrite app_nil_r. split; [reflexivity|]. split; [reflexivity|]. split; [split; reflexivity|]. split; [assumption|]. split; [|constructor].
      intros [E|[E|(b & [= ->])]]; [congruence|discriminate|reflexivity].
    - discriminate.
    - destruct (Nat.leb_spec (early (List.length frame)) (k_left c)).
      + intros [= <-]. cbn [n_buffer n_closed n_stream]. split; [reflexivity|].
        exists [], (conn_write frame c), (k_got c), (k_left c). rewrite app_nil_r. split; [reflexivity|]. split; [reflexivity|]. split; [split; reflexivity|]. split; [assumption|]. split; [|constructor].
        intros [E|[E|(b & [= ->])]]; [congruence|discriminate|reflexivity].
      + intros E. apply IH in E; [|exact Hb]. cbn [n_buffer n_closed n_stream n_tags n_attempts] in E. destruct E as (E0 & lost & c' & old & n & E1 & E2 & E3 & E4 & E5 & E6). split; [exact E0|].
        exists (conn_write frame c :: lost), c', old, n. split; [rewrite E1, <- app_assoc; reflexivity|]. split; [assumption|]. split; [assumption|]. split; [assumption|]. split.
        * intros _. apply E5. right. destruct a; cbn [option_map]; [right; eexists; reflexivity|left; reflexivity].
        * constructor; [|assumption]. exists (k_got c), (k_left c). split; [split; reflexivity|assumption].
    - intros E. apply IH in E; [|exact Hb]. cbn [n_buffer n_closed n_stream n_tags n_attempts] in E. destruct E as (E0 & lost & c' & old & n & E1 & E2 & E3 & E4 & E5 & E6). split; [exact E0|].
      exists lost, c', old, n. split; [assumption|]. split; [assumption|]. split; [assumption|]. split; [assumption|]. split; [|assumption].
      intros _. apply E5. right. destruct a; cbn [option_map]; [right; eexists; reflexivity|left; reflexivity]. }
  apply G in H; [|reflexivity]. cbn [n_closed n_stream] in H. destruct H as (E0 & lost & c & old & n & E1 & E2 & E3 & E4 & E5 & E6). split; [exact E0|].
  exists lost, c, old, n. repeat (split; [assumption|]). split; [|assumption]. intros [E|E]; apply E5; tauto.
Qed.
(** and it returns as soon as a connection takes that part *)
Theorem C42_native_flush_ends : forall `{Q : QLib} early conns s,
  native_flush early conns s = None <->
  (forall c, n_stream s = Some c -> k_left c < early (List.length (sink_frame (n_tags s) (n_buffer s)))) /\
  Forall (fun a => forall n, a = Some n -> n < early (List.length (sink_frame (n_tags s) (n_buffer s)))) conns.
Proof.
  intros Q early conns s. unfold native_flush. set (frame := sink_frame (n_tags s) (n_buffer s)).
  assert (G : forall conns s, send_loop early frame s conns = None <-> (forall c, n_stream s = Some c -> k_left c < early (List.length frame)) /\ Forall (fun a => forall n, a = Some n -> n < early (List.length frame)) conns).
  { clearbody frame. clear. induction conns as [|a conns IH]; intros s; cbn [send_loop]; unfold attempt at 1; destruct (n_stream s) as [c|] eqn:Es.
    - destruct (Nat.leb_spec (early (List.length frame)) (k_left c)); (split; [intros|]).
      + discriminate.
      + intros [H1 _]. specialize (H1 c eq_refl). lia.
      + split; [intros c' [= <-]; assumption|constructor].
      + reflexivity.
    - split; [intros _; split; [discriminate|constructor]|reflexivity].
    - destruct (Nat.leb_spec (early (List.length frame)) (k_left c)).
      + split; [discriminate|]. intros [H1 _]. specialize (H1 c eq_refl). lia.
      + rewrite IH. cbn [n_stream]. split.
        * intros [H1 H2]. split; [intros c' [= <-]; assumption|]. constructor; [|assumption]. intros n ->. apply (H1 (mkNConn [] n)). reflexivity.
        * intros [H1 H2]. inversion H2 as [|? ? H3 H4]; subst. split; [|assumption]. intros c' E. destruct a as [n|]; [|discriminate]. injection E as <-. cbn. apply H3. reflexivity.
    - rewrite IH. cbn [n_stream]. split.
      + intros [H1 H2]. split; [discriminate|]. constructor; [|assumption]. intros n ->. apply (H1 (mkNConn [] n)). reflexivity.
      + intros [H1 H2]. inversion H2 as [|? ? H3 H4]; subst. split; [|assumption]. intros c' E. destruct a as [n|]; [|discriminate]. injection E as <-. cbn. apply H3. reflexivity. }
  rewrite G. reflexivity.
Qed.
(** a buffer of 8192 bytes: what has left it when the last byte is handed over *)
Definition early8192 (n : nat) : nat := N.to_nat ((N.of_nat n - 1) / 8192 * 8192).
Lemma early8192_lt n : 0 < n -> early8192 n < n.
Proof. intros H. unfold early8192. pose proof (N.div_mod (N.of_nat n - 1) 8192 ltac:(lia)). lia. Qed.
Lemma early8192_small n : n <= N.to_nat 8192 -> early8192 n = 0.
Proof. intros H. unfold early8192. rewrite N.div_small by lia. reflexivity. Qed.
Example C42_native_ex :
  native_flush early8192 [] (mkNSink [] xb 0 (Some (mkNConn [] 0)) []) = Some (mkNSink [] [] 0 (Some (mkNConn [] 0)) []) /\
  option_map (fun s => (n_attempts s, map k_got (n_closed s), option_map k_got (n_stream s)))
    (native_flush (fun n => n - 3) [None; Some 20; Some 90] (mkNSink [] xb 0 (Some (mkNConn [9%N] 5)) [])) =
    Some (2%N, [[9; 0; 0; 0; 77; 18]%N; firstn 20 (sink_frame [] xb)], Some (sink_frame [] xb)).
Proof. split; reflexivity. Qed.
Print Assumptions C42_native_refuted.
Print Assumptions C42_native_dead_connection.
Print Assumptions C42_native_flush_partial.
Print Assumptions C42_native_flush_ends.

(** ** C71: a flush of a native sink that has nothing to send *)

(** The frame of an empty flush is a zero length, which the source takes for the end
    of the stream: it closes the connection, and whatever the sink writes on it
    later is lost. *)
Theorem C71_idle_flush_refuted : forall `{Q : QLib} utf8 cap max now d batches later sc,
  0 < cap -> (N.of_nat max < 2 ^ 32)%N -> meta_ok utf8 d -> Forall (good_batch utf8 max d) batches ->
  List.concat sc = List.concat (map (sink_frame d) batches) ++ sink_frame d [] ++ later ->
  exists evs, native_stream utf8 cap max now (map AData sc) = (evs, HStream EEof) /\ Forall2 (arrives d) (flat_map in_wire_order batches) evs.
Proof.
  intros Q utf8 cap max now d batches later sc Hc Hmax Hd H Hb. destruct (good_frames utf8 max d batches Hd H) as (E1 & E2 & _).
  destruct (consume_good utf8 max now d EEof batches [] Hd Hmax H) as (evs & E & F). exists evs. split; [|exact F]. rewrite app_nil_r in E. cbn [consume] in E. rewrite app_nil_r in E.
  rewrite <- E. apply native_stream_consume. apply (handle_stream_spec cap max _ (sink_frame d [] ++ later) EEof).
  - assumption.
  - apply lengths_32; assumption.
  - apply end_empty_payload; [rewrite app_length; cbn; lia|reflexivity].
  - apply Forall_map. apply Forall_forall. intros x _. split; discriminate.
  - unfold bytes_of. rewrite map_map, map_id, Hb, E1. reflexivity.
  - intros s1 s2 Es. exfalso. assert (Hin : In ABlock (map AData sc)) by (rewrite Es; apply in_or_app; right; left; reflexivity).
    apply in_map_iff in Hin as (x & Hx & _). discriminate.
Qed.
Example C71_ex : native_stream (Q := xQ) anyutf 64 200 0 [AData (sink_frame [] [] ++ sink_frame [] xb)] = ([], HStream EEof).
Proof. reflexivity. Qed.
Print Assumptions C71_idle_flush_refuted.

(** ** C72: milliseconds and seconds: no timestamp in range is shifted *)
Theorem C72_timestamps : forall ts, (Z.abs ts <= 2 ^ 43)%Z -> ms_seconds (wrap64 (ts * 1000)) = ts.
Proof. intros ts H. destruct (ts_ok ts H) as [_ ->]. apply ms_seconds_exact. assumption. Qed.
(** and the sink's multiplication wraps for large ones *)
Theorem C72_refuted : exists ts, (- 2 ^ 63 <= ts < 2 ^ 63)%Z /\ ms_seconds (wrap64 (ts * 1000)) <> ts.
Proof. exists (2 ^ 62)%Z. split; [lia|]. vm_compute. discriminate. Qed.
Example C72_ex : ms_seconds (wrap64 (1500000000 * 1000)) = 1500000000%Z.
Proof. reflexivity. Qed.
Print Assumptions C72_timestamps.
Print Assumptions C72_refuted.
