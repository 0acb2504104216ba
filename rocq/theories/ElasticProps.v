(** * The elasticsearch sink: properties C38 and C63. *)
From Verif Require Import Base BaseFacts TelemetryModel TelemetrySpec TelemetryProofs ElasticModel ElasticSpec ElasticProofs.
Open Scope string_scope. Open Scope list_scope. Open Scope nat_scope.

Definition es_reached render uuid_str limit prefix ty tags ops e log : Prop :=
  es_run render uuid_str (es_init limit prefix ty tags) ops = Some (e, log).

Lemma reached_inv render uuid_str limit prefix ty tags ops e log : (limit < 255)%N -> NoDup (map fst (es_deliveries ops)) ->
  es_reached render uuid_str limit prefix ty tags ops e log -> inv limit (es_deliveries ops) (es_received log) e.
Proof.
  intros Hl Hd H. refine (inv_run render uuid_str limit Hl ops [] [] _ e log Hd _ H).
  constructor; try reflexivity. intros u b [].
Qed.

(** ** C38 *)
(** At every point of every history the buffer holds exactly the delivered lines, in order of delivery, that the
    server has not stored and has not refused more often than the limit; the counters are the answers received. *)
Theorem C38_lines_partial render uuid_str limit prefix ty tags ops e log :
  (limit < 255)%N -> NoDup (map fst (es_deliveries ops)) ->
  es_reached render uuid_str limit prefix ty tags ops e log ->
  map (fun m => (el_uuid m, el_line m)) (es_buffer e) = es_open_lines limit (es_deliveries ops) (es_received log) /\
  es_delivered e = N.of_nat (List.length (filter snd (es_received log))) /\
  es_failed e = N.of_nat (List.length (filter (fun it => negb (snd it)) (es_received log))) /\
  (es_valve_open e = false <-> (10000 < N.of_nat (List.length (es_open_lines limit (es_deliveries ops) (es_received log))))%N).
Proof.
  intros Hl Hd H. destruct (reached_inv _ _ _ _ _ _ _ _ _ Hl Hd H) as [_ Hb _ H1 H2].
  split; [|split; [assumption|split; [assumption|]]].
  - rewrite Hb, map_map. unfold view. cbn. rewrite <- (map_id (es_open_lines _ _ _)) at 2. apply map_ext. intros [a b]; reflexivity.
  - unfold es_valve_open. rewrite Hb, map_length. rewrite negb_false_iff, N.ltb_lt. reflexivity.
Qed.

(** A request holds one action for every line that is still to be delivered, in order, whatever happened before. *)
Theorem C38_requests render uuid_str limit prefix ty tags ops e log a e' body :
  (limit < 255)%N -> NoDup (map fst (es_deliveries ops)) ->
  es_reached render uuid_str limit prefix ty tags ops e log -> es_flush render uuid_str e a = Some (e', Some body) ->
  map a_id body = map fst (es_open_lines limit (es_deliveries ops) (es_received log)).
Proof.
  intros Hl Hd H E. destruct (reached_inv _ _ _ _ _ _ _ _ _ Hl Hd H) as [_ Hb _ _ _].
  unfold es_flush in E. destruct (es_buffer e) as [|m0 b0] eqn:Eb; [discriminate|]. rewrite <- Eb in *.
  destruct (es_body render uuid_str e (es_buffer e)) as [body'|] eqn:Ebody; [|discriminate].
  assert (Eq : body' = body) by (destruct a as [| |its]; [congruence|congruence|destruct (es_items _ its); congruence]). subst body'.
  rewrite (body_ids _ _ _ _ _ Ebody), Hb. apply view_uuids.
Qed.
(** An empty buffer makes no request. *)
Theorem C38_no_empty_request render uuid_str e a : es_buffer e = [] -> es_flush render uuid_str e a = Some (e, None).
Proof. intros H. unfold es_flush. rewrite H. reflexivity. Qed.

Lemma items_fine : forall its e ids, map fst its = map Some ids -> NoDup ids -> NoDup (map el_uuid (es_buffer e)) -> incl ids (map el_uuid (es_buffer e)) ->
  es_items e its <> None.
Proof.
  induction its as [|[o ok] its IH]; intros e ids Em Hn Hb Hi; [discriminate|].
  destruct ids as [|u ids]; [discriminate|]. cbn in Em. injection Em as -> Em. inversion Hn as [|? ? Hu Hn']; subst.
  cbn [es_items]. destruct (es_item e (Some u, ok)) as [e1|] eqn:E1.
  - apply (IH e1 ids Em Hn').
    + destruct ok.
      * destruct (item_ok e u Hb e1 E1) as [_ ->]. cbn. apply NoDup_map_filter. assumption.
      * destruct (item_err e u Hb e1 E1) as [_ ->]. cbn. apply NoDup_map_filter. rewrite bump_if_uuids. assumption.
    + intros v Hv. assert (Hne : v <> u) by (intros ->; contradiction). specialize (Hi v (or_intror Hv)).
      apply in_map_iff in Hi as (m & <- & Hm). assert (Hf : uis u m = false) by (apply N.eqb_neq; assumption). destruct ok.
      * destruct (item_ok e u Hb e1 E1) as [_ ->]. cbn. apply in_map. apply filter_In. rewrite Hf. auto.
      * destruct (item_err e u Hb e1 E1) as [_ ->]. cbn. apply in_map. apply filter_In. rewrite Hf. split; [|reflexivity].
        apply in_map_iff. exists m. unfold bump_if. rewrite Hf. auto.
  - exfalso. unfold es_item in E1. cbn [fst snd] in E1. pose proof (find_In u (es_buffer e) (Hi u (or_introl eq_refl))) as Hl.
    destruct (Nat.ltb_spec (es_find u (es_buffer e)) (List.length (es_buffer e))); [|lia]. destruct ok; [discriminate|].
    destruct (nth_error _ _) eqn:Ex; [discriminate|]. apply nth_error_None in Ex. rewrite update_at_length in Ex. lia.
Qed.
(** A server that answers each buffered line at most once never stops the sink. *)
Theorem C38_answers_handled render uuid_str limit prefix ty tags ops e log its ids :
  (limit < 255)%N -> NoDup (map fst (es_deliveries ops)) -> (forall z, render z <> None) ->
  es_reached render uuid_str limit prefix ty tags ops e log ->
  map fst its = map Some ids -> NoDup ids -> incl ids (map fst (es_open_lines limit (es_deliveries ops) (es_received log))) ->
  es_flush render uuid_str e (ESItems its) <> None.
Proof.
  intros Hl Hd Hr H Em Hn Hi. pose proof (reached_inv _ _ _ _ _ _ _ _ _ Hl Hd H) as I. pose proof (inv_NoDup _ _ _ _ I Hd) as Hb.
  pose proof (inv_buffer _ _ _ _ I) as Eb.
  unfold es_flush. destruct (es_buffer e) as [|m0 b0] eqn:E0; [discriminate|]. rewrite <- E0 in *.
  pose proof (body_some render uuid_str e (es_buffer e) ltac:(apply Forall_forall; intros m _; apply Hr)) as Hbody.
  destruct (es_body render uuid_str e (es_buffer e)); [|contradiction].
  match goal with |- context [es_items ?x its] => pose proof (items_fine its x ids Em Hn) as F end. cbn [es_buffer] in F.
  specialize (F Hb). rewrite Eb, view_uuids in F. specialize (F Hi). rewrite <- Eb in F.
  destruct (es_items _ its); [discriminate|contradiction].
Qed.

(** The full claim is false for the limit 255: the attempt counter wraps, the line is retried for ever. *)
Definition xl (v : string) (fields : tagmap) : logline := mkLog 0 "p" v fields None.
Definition xrender (z : Z) : option (string * string) := Some ("1970-01-01", "1970-01-01T00:00:00+00:00").
Definition xuuid (u : N) : string := "u".
Lemma wrap_stays : forall n c, exists e log,
  es_run xrender xuuid (mkEs [mkEline c 1 (xl "v" [])] 255 None "t" [] 0 0 0 0) (repeat (ESFlush (ESItems [(Some 1%N, false)])) n) = Some (e, log) /\
  map el_uuid (es_buffer e) = [1%N] /\ es_refusals 1 (es_received log) = N.of_nat n.
Proof.
  assert (G : forall n c d f r len, exists e log,
    es_run xrender xuuid (mkEs [mkEline c 1 (xl "v" [])] 255 None "t" [] d f r len) (repeat (ESFlush (ESItems [(Some 1%N, false)])) n) = Some (e, log) /\
    map el_uuid (es_buffer e) = [1%N] /\ es_refusals 1 (es_received log) = N.of_nat n); [|intros n c; apply G].
  induction n as [|n IH]; intros c d f r len; [eexists; eexists; split; [reflexivity|split; reflexivity]|].
  destruct (IH (succ8 c) (d + 0)%N (f + 1)%N (r + 1)%N 1) as (e & log & E & Hb & Hr).
  assert (Hw : (255 <? succ8 c)%N = false) by (apply N.ltb_ge; unfold succ8; pose proof (N.mod_upper_bound (c + 1) 256); lia).
  set (m := mkEline c 1 (xl "v" [])) in *. set (m' := mkEline (succ8 c) 1 (xl "v" [])) in *.
  set (e0 := mkEs [m] 255 None "t" [] d f r len).
  assert (F : exists body, es_flush xrender xuuid e0 (ESItems [(Some 1%N, false)]) = Some (mkEs [m'] 255 None "t" [] (d + 0) (f + 1) (r + 1) 1, Some body)).
  { eexists. unfold es_flush, es_items, es_item, e0. cbn -[succ8 N.ltb]. rewrite Hw. reflexivity. }
  destruct F as [body F]. exists e, ((body, ESItems [(Some 1%N, false)]) :: log). cbn [repeat es_run]. rewrite F, E. split; [reflexivity|]. split; [assumption|].
  cbn [es_received flat_map snd]. fold (es_received log). rewrite refusals_app, Hr, refusals_one. cbn. lia.
Qed.
Theorem C38_refuted : forall n, exists ops e log, es_reached xrender xuuid 255 None "t" [] ops e log /\
  NoDup (map fst (es_deliveries ops)) /\ es_refusals 1 (es_received log) = N.of_nat n /\ map el_uuid (es_buffer e) = [1%N].
Proof.
  intros n. destruct (wrap_stays n 0) as (e & log & E & Hb & Hr).
  exists (ESDeliver 1 (xl "v" []) :: repeat (ESFlush (ESItems [(Some 1%N, false)])) n), e, log.
  split; [exact E|]. split; [|auto]. assert (Z : es_deliveries (repeat (ESFlush (ESItems [(Some 1%N, false)])) n) = []) by (clear; induction n; [reflexivity|assumption]).
  unfold es_deliveries in *. cbn [flat_map app]. rewrite Z. cbn. constructor; [intros []|constructor].
Qed.

(** ** C63 *)
(** The document of a line, completely: fields over the line's tags over configured tags over uuid, path, payload, timestamp. *)
Theorem C63_document render uuid_str e m a : line_ok (el_line m) -> tm_ok (es_tags e) -> es_action render uuid_str e m = Some a ->
  exists day full, render (l_time (el_line m)) = Some (day, full) /\ a_id a = el_uuid m /\ a_type a = es_type e /\
    a_index a = match es_prefix e with Some p => (p ++ "-" ++ day)%string | None => day end /\
    forall k, alookup seqb k (a_doc a) = es_doc_value (es_tags e) (uuid_str (el_uuid m)) (el_line m) full k.
Proof.
  intros [Hf Ht] Hd E. unfold es_action in E. destruct (render (l_time (el_line m))) as [[day full]|]; [|discriminate]. injection E as <-.
  exists day, full. split; [reflexivity|]. split; [reflexivity|]. split; [reflexivity|]. split; [reflexivity|]. intros k. cbn [a_doc].
  rewrite doc_inserts by exact Hf. unfold es_doc_value, tm_get. destruct (alookup seqb k (l_fields (el_line m))); [reflexivity|].
  pose proof (tag_iter_NoDup (l_tags (el_line m)) (es_tags e) Ht Hd) as Hn. rewrite doc_inserts by exact Hn.
  pose proof (fun v => tag_iter_layered (l_tags (el_line m)) (es_tags e) k v Ht Hd) as L.
  assert (T : alookup seqb k (tag_iter (l_tags (el_line m)) (es_tags e)) =
    match otag k (l_tags (el_line m)) with Some v => Some v | None => alookup seqb k (es_tags e) end).
  { destruct (alookup seqb k (tag_iter (l_tags (el_line m)) (es_tags e))) as [v|] eqn:Ek.
    - apply (alookup_In seqb seqb_eq) in Ek. apply L in Ek. unfold layered in Ek. destruct (l_tags (el_line m)) as [own|]; cbn [otag tm_get].
      + destruct Ek as [Ek|[Ek1 Ek2]].
        * unfold tm_get. rewrite (In_alookup seqb seqb_eq _ _ _ Ht Ek). reflexivity.
        * unfold tm_get. apply (alookup_None seqb seqb_eq) in Ek1. rewrite Ek1. symmetry. apply (In_alookup seqb seqb_eq _ _ _ Hd Ek2).
      + symmetry. apply (In_alookup seqb seqb_eq _ _ _ Hd Ek).
    - apply (alookup_None seqb seqb_eq) in Ek. assert (Hno : forall v, ~ layered (l_tags (el_line m)) (es_tags e) k v).
      { intros v Hv. apply L in Hv. apply Ek. apply (in_map fst) in Hv. exact Hv. }
      unfold layered in Hno. destruct (l_tags (el_line m)) as [own|]; cbn [otag].
      + unfold tm_get. destruct (alookup seqb k own) as [v|] eqn:Eo; [exfalso; apply (Hno v); left; apply (alookup_In seqb seqb_eq); assumption|].
        destruct (alookup seqb k (es_tags e)) as [v|] eqn:Ed; [|reflexivity]. exfalso. apply (Hno v). right. split; [apply (alookup_None seqb seqb_eq); assumption|apply (alookup_In seqb seqb_eq); assumption].
      + destruct (alookup seqb k (es_tags e)) as [v|] eqn:Ed; [|reflexivity]. exfalso. apply (Hno v). apply (alookup_In seqb seqb_eq); assumption. }
  rewrite T. unfold tm_get. destruct (otag k (l_tags (el_line m))); [reflexivity|]. destruct (alookup seqb k (es_tags e)); [reflexivity|].
  unfold es_fixed. cbn [alookup]. reflexivity.
Qed.
(** The claim that the payload of the line is in the document is false: a field or tag named "payload" replaces it. *)
Theorem C63_refuted : exists e m a, es_action xrender xuuid e m = Some a /\ line_ok (el_line m) /\
  l_value (el_line m) = "text" /\ alookup seqb "payload" (a_doc a) = Some "other".
Proof.
  exists (es_init 10 None "t" []), (mkEline 0 1 (xl "text" [("payload", "other")])). eexists. split; [reflexivity|].
  split; [split; [constructor; [intros []|constructor]|exact I]|]. split; reflexivity.
Qed.
(** What holds: without such names the line's id, path, payload and time are in the document. *)
Theorem C63_partial render uuid_str e m a : line_ok (el_line m) -> tm_ok (es_tags e) -> es_action render uuid_str e m = Some a ->
  (forall k, In k ["uuid"; "path"; "payload"; "timestamp"] ->
     tm_get k (l_fields (el_line m)) = None /\ otag k (l_tags (el_line m)) = None /\ tm_get k (es_tags e) = None) ->
  alookup seqb "uuid" (a_doc a) = Some (uuid_str (el_uuid m)) /\ alookup seqb "path" (a_doc a) = Some (l_path (el_line m)) /\
  alookup seqb "payload" (a_doc a) = Some (l_value (el_line m)) /\
  exists day full, render (l_time (el_line m)) = Some (day, full) /\ alookup seqb "timestamp" (a_doc a) = Some full.
Proof.
  intros Hl Hd E Hk. destruct (C63_document _ _ _ _ _ Hl Hd E) as (day & full & R & _ & _ & _ & D).
  rewrite !D. unfold es_doc_value.
  destruct (Hk "uuid") as (-> & -> & ->); [cbn; auto|]. destruct (Hk "path") as (-> & -> & ->); [cbn; auto|]. destruct (Hk "payload") as (-> & -> & ->); [cbn; auto|].
  repeat (split; [reflexivity|]). exists day, full. split; [exact R|]. rewrite ?D. unfold es_doc_value. destruct (Hk "timestamp") as (-> & -> & ->); [cbn; auto 6|]. reflexivity.
Qed.

(** ** Examples *)
(** limit 1; line 1 stored at once, line 2 refused twice and dropped, line 3 refused once *)
Definition xops := [ESDeliver 1 (xl "a" []); ESDeliver 2 (xl "b" []); ESFlush ESNoResponse;
  ESFlush (ESItems [(Some 2%N, false); (Some 1%N, true)]); ESDeliver 3 (xl "c" []); ESFlush ESError; ESFlush (ESItems [(Some 2%N, false); (Some 3%N, false)])].
Definition xview (r : option (es * list (list action * es_answer))) : option (list (N * N) * list (list N)) :=
  match r with Some (e, log) => Some (map (fun m => (el_uuid m, el_attempts m)) (es_buffer e), map (fun q => map a_id (fst q)) log) | None => None end.
Example C38_example : xview (es_run xrender xuuid (es_init 1 None "t" []) xops) = Some ([(3, 1)], [[1; 2]; [1; 2]; [2; 3]; [2; 3]])%N.
Proof. reflexivity. Qed.
Example C38_example_distinct : NoDup (map fst (es_deliveries xops)).
Proof. cbn. repeat constructor; cbn; intuition discriminate. Qed.
Example C63_example : exists a, es_action xrender xuuid (es_init 10 (Some "idx") "t" [("host", "h")]) (mkEline 0 1 (mkLog 0 "p" "v" [("f", "1")] (Some [("host", "own")]))) = Some a /\
  a_index a = "idx-1970-01-01" /\ map (fun k => alookup seqb k (a_doc a)) ["payload"; "host"; "f"; "g"] = [Some "v"; Some "own"; Some "1"; None].
Proof. eexists. split; [reflexivity|]. split; reflexivity. Qed.

Print Assumptions C38_lines_partial.
Print Assumptions C38_requests.
Print Assumptions C38_no_empty_request.
Print Assumptions C38_answers_handled.
Print Assumptions C38_refuted.
Print Assumptions C63_document.
Print Assumptions C63_refuted.
Print Assumptions C63_partial.
