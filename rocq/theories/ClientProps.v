(** * Property C87: any client of the native protocol. *)
From Verif Require Import Base BaseFacts FloatFacts TelemetryModel TelemetrySpec TelemetryProofs TelemetryProps QExample
  ProtoModel ProtoProofs NativeModel NativeSpec NativeProofs NativeProps ClientSpec.
Open Scope string_scope. Open Scope list_scope. Open Scope nat_scope.

Lemma last_said_snoc {A} (l : list A) x : last_said (l ++ [x]) = Some x.
Proof. induction l as [|y l IH]; [reflexivity|]. cbn. rewrite IH. reflexivity. Qed.
Lemma flat_map_snoc {A B} (f : A -> list B) l x : flat_map f (l ++ [x]) = flat_map f l ++ f x.
Proof. rewrite flat_map_app. cbn. rewrite app_nil_r. reflexivity. Qed.

Section Client.
Variable utf8 : list N -> bool.
Lemma other_efield num w k v r : (2 < num)%N -> entry_merge utf8 k v ((num, w) :: r) = entry_merge utf8 k v r.
Proof. intros H. destruct num as [|[q|[q|q|]|]]; try reflexivity; lia. Qed.
Lemma merge_tag es : Forall (epart_ok utf8) es -> forall k v, entry_merge utf8 k v (map epart_field es) =
  Some (match last_said (flat_map (fun e => match e with EKey s => [s] | _ => [] end) es) with Some s => s | None => k end,
        match last_said (flat_map (fun e => match e with EValue s => [s] | _ => [] end) es) with Some s => s | None => v end).
Proof.
  induction 1 as [|e es He _ IH]; intros k v; [reflexivity|]. destruct e as [s|s|num w]; cbn [map epart_field flat_map app].
  - cbn [epart_ok] in He. unfold text. cbn [entry_merge]. rewrite read_string_ok, IH by assumption. cbn [last_said]. destruct (last_said _); reflexivity.
  - cbn [epart_ok] in He. unfold text. cbn [entry_merge]. rewrite read_string_ok, IH by assumption. cbn [last_said]. destruct (last_said (flat_map (fun e => match e with EValue s => [s] | _ => [] end) es)); reflexivity.
  - rewrite other_efield by apply He. apply IH.
Qed.
Lemma read_tag_bytes es : Forall (epart_ok utf8) es -> (N.of_nat (List.length (tag_bytes es)) < 2 ^ 32)%N -> read_entry utf8 (tag_bytes es) = Some (tag_key es, tag_value es).
Proof.
  intros H HL. unfold read_entry, tag_bytes. rewrite <- (map_map epart_field write_field), parse_write_fields.
  - rewrite merge_tag by assumption. reflexivity.
  - apply Forall_forall. intros f Hf. pose proof Hf as Hin. apply in_map_iff in Hf as (e & <- & He). rewrite Forall_forall in H. specialize (H e He).
    assert (B : forall num bs, epart_field e = (num, WLen bs) -> (N.of_nat (List.length bs) < 2 ^ 32)%N).
    { intros num bs E. rewrite E in Hin. pose proof (field_len_bound utf8 num bs _ Hin) as L. unfold fields_bytes in L. unfold tag_bytes in HL. rewrite map_map in L. lia. }
    destruct e as [s|s|num w]; cbn [epart_field epart_ok] in *; [split; [cbn; lia|]; exact (B _ _ eq_refl)..|]. destruct H as [[H1 H2] _]. split; [exact H1|]. destruct w; exact H2.
Qed.
Lemma tm_insert_ok k v m : tm_ok m -> tm_ok (tm_insert k v m).
Proof. apply (ainsert_NoDup seqb seqb_eq). Qed.
Lemma tag_said m f k v : (forall x, tm_get x m = last_said (f x)) ->
  forall x, tm_get x (tm_insert k v m) = last_said (f x ++ (if seqb x k then [v] else [])).
Proof.
  intros H x. unfold tm_get, tm_insert in *. destruct (seqb x k) eqn:E.
  - apply seqb_eq in E. subst x. rewrite (alookup_ainsert_eq seqb seqb_eq), last_said_snoc. reflexivity.
  - rewrite app_nil_r, <- H. apply (alookup_ainsert_ne seqb seqb_eq). intros ->. rewrite (proj2 (seqb_eq x x) eq_refl) in E. discriminate.
Qed.

Definition bounded (f : N * wire) : Prop := forall bs, snd f = WLen bs -> (N.of_nat (List.length bs) < 2 ^ 32)%N.
Lemma other_pfield num w p : (7 < num)%N -> point_field utf8 p (num, w) = Some p.
Proof. intros H. destruct num as [|[[[q|q|]|[q|q|]|]|[[q|q|]|[q|q|]|]|]]; try reflexivity; lia. Qed.
Lemma other_lfield num w p : (4 < num)%N -> line_field utf8 p (num, w) = Some p.
Proof. intros H. destruct num as [|[[[q|q|]|[q|q|]|]|[[q|q|]|[q|q|]|]|]]; try reflexivity; lia. Qed.
Lemma read_pparts ps : Forall (ppart_ok utf8) ps -> Forall bounded (map ppart_field ps) ->
  exists p, merge_all (point_field utf8) wpoint_new (map ppart_field ps) = Some p /\ pmeans ps p.
Proof.
  induction ps as [|x ps IH] using rev_ind; intros H HB.
  - exists wpoint_new. split; [reflexivity|]. repeat split; try reflexivity. constructor.
  - apply Forall_app in H as [H Hx]. inversion Hx as [|? ? Hx' _]; subst. clear Hx.
    rewrite map_app in HB. apply Forall_app in HB as [HB B]. inversion B as [|? ? B' _]; subst. clear B.
    destruct (IH H HB) as (p & E & M). clear IH H HB.
    rewrite map_app, merge_all_app, E. cbn [map merge_all]. clear E.
    assert (G : exists p', point_field utf8 p (ppart_field x) = Some p' /\ pmeans (ps ++ [x]) p');
      [|destruct G as (p' & -> & G); exists p'; split; [reflexivity|exact G]].
    destruct M as (M1 & M2 & M3 & M4 & [M5 M5'] & M6 & M7). unfold pmeans, samples_said in *.
    assert (T : forall y, (forall k, match y with PTag es => if seqb k (tag_key es) then [tag_value es] else [] | _ => [] end = []) -> forall k, tm_get k (w_meta p) = last_said (flat_map (fun x => match x with PTag es => if seqb k (tag_key es) then [tag_value es] else [] | _ => [] end) (ps ++ [y]))).
    { intros y Hy k. rewrite flat_map_snoc, Hy, app_nil_r. apply M5'. }
    destruct x as [s|l|y|b|m|es|z|l|y|num w]; cbn [ppart_field ppart_ok] in *;
      [ unfold text; cbn [point_field]; rewrite read_string_ok by exact Hx'
      | unfold doubles; cbn [point_field read_doubles]; rewrite read_packed_write by (assumption || (rewrite doubles_len; lia))
      | unfold one_double; cbn [point_field read_doubles]; destruct (fbits_N y) as [_ ->]; [exact Hx'|]
      | cbn [point_field]; replace (negb ((if b then 1 else 0) mod 2 ^ 32 =? 0)%N) with b by (destruct b; reflexivity)
      | cbn [point_field]; replace (method_of ((match m with MSum => 1 | MSet => 2 | MSummarize => 3 | MHistogram => 4 end) mod 2 ^ 32)%N) with (Some m) by (destruct m; reflexivity)
      | cbn [point_field]; rewrite read_tag_bytes by (exact Hx' || exact (B' _ eq_refl))
      | cbn [point_field]; destruct (i64_u64 z Hx') as [-> _]
      | unfold doubles; cbn [point_field read_doubles]; rewrite read_packed_write by (assumption || (rewrite doubles_len; lia))
      | unfold one_double; cbn [point_field read_doubles]; destruct (fbits_N y) as [_ ->]; [exact Hx'|]
      | rewrite other_pfield by apply Hx' ];
      eexists; (split; [reflexivity|]); cbn [w_name w_samples w_persisted w_method w_meta w_ts w_bounds];
      (split; [|split; [|split; [|split; [|split; [split; [first [exact M5|apply tm_insert_ok; exact M5]|]|split]]]]]);
      try (rewrite flat_map_snoc, ?app_nil_r, ?last_said_snoc; congruence);
      try (apply (T _); reflexivity).
    intros x. rewrite flat_map_snoc. exact (tag_said (w_meta p) _ (tag_key es) (tag_value es) M5' x).
Qed.
Lemma read_lparts ps : Forall (lpart_ok utf8) ps -> Forall bounded (map lpart_field ps) ->
  exists p, merge_all (line_field utf8) wline_new (map lpart_field ps) = Some p /\ lmeans ps p.
Proof.
  induction ps as [|x ps IH] using rev_ind; intros H HB.
  - exists wline_new. split; [reflexivity|]. repeat split; try reflexivity. constructor.
  - apply Forall_app in H as [H Hx]. inversion Hx as [|? ? Hx' _]; subst. clear Hx.
    rewrite map_app in HB. apply Forall_app in HB as [HB B]. inversion B as [|? ? B' _]; subst. clear B.
    destruct (IH H HB) as (p & E & M). clear IH H HB.
    rewrite map_app, merge_all_app, E. cbn [map merge_all]. clear E.
    assert (G : exists p', line_field utf8 p (lpart_field x) = Some p' /\ lmeans (ps ++ [x]) p');
      [|destruct G as (p' & -> & G); exists p'; split; [reflexivity|exact G]].
    destruct M as (M1 & M2 & [M5 M5'] & M6). unfold lmeans in *.
    assert (T : forall y, (forall k, match y with LTag es => if seqb k (tag_key es) then [tag_value es] else [] | _ => [] end = []) -> forall k, tm_get k (wl_meta p) = last_said (flat_map (fun x => match x with LTag es => if seqb k (tag_key es) then [tag_value es] else [] | _ => [] end) (ps ++ [y]))).
    { intros y Hy k. rewrite flat_map_snoc, Hy, app_nil_r. apply M5'. }
    destruct x as [s|s|es|z|num w]; cbn [lpart_field lpart_ok] in *;
      [ unfold text; cbn [line_field]; rewrite read_string_ok by exact Hx'
      | unfold text; cbn [line_field]; rewrite read_string_ok by exact Hx'
      | cbn [line_field]; rewrite read_tag_bytes by (exact Hx' || exact (B' _ eq_refl))
      | cbn [line_field]; destruct (i64_u64 z Hx') as [-> _]
      | rewrite other_lfield by apply Hx' ];
      eexists; (split; [reflexivity|]); cbn [wl_path wl_value wl_meta wl_ts];
      (split; [|split; [|split; [split; [first [exact M5|apply tm_insert_ok; exact M5]|]|]]]);
      try (rewrite flat_map_snoc, ?app_nil_r, ?last_said_snoc; congruence);
      try (apply (T _); reflexivity).
    intros x. rewrite flat_map_snoc. exact (tag_said (wl_meta p) _ (tag_key es) (tag_value es) M5' x).
Qed.

Lemma bounded_ok {A} (f : A -> N * wire) (xs : list A) : (N.of_nat (List.length (List.concat (map (fun x => write_field (f x)) xs))) < 2 ^ 32)%N -> Forall bounded (map f xs).
Proof.
  intros HL. apply Forall_forall. intros [num w] Hin bs E. cbn in E. subst w. pose proof (field_len_bound utf8 num bs _ Hin) as L. unfold fields_bytes in L. rewrite map_map in L. lia.
Qed.
Lemma read_cpoint ps : Forall (ppart_ok utf8) ps -> (N.of_nat (List.length (pparts_bytes ps)) < 2 ^ 32)%N ->
  exists p, read_message (point_field utf8) wpoint_new (pparts_bytes ps) = Some p /\ pmeans ps p.
Proof.
  intros H HL. assert (B := bounded_ok ppart_field ps HL). unfold read_message, pparts_bytes. rewrite <- (map_map ppart_field write_field), parse_write_fields; [apply read_pparts; assumption|].
  apply Forall_forall. intros f Hf. apply in_map_iff in Hf as (x & <- & Hx). rewrite Forall_forall in H, B. specialize (H x Hx). specialize (B _ (in_map ppart_field _ _ Hx)).
  destruct x as [s|l|y|b|m|es|z|l|y|num w]; cbn [ppart_field ppart_ok] in *; try (split; [cbn; lia|]; cbn [snd wire_ok]).
  1,2,6,8: exact (B _ eq_refl).
  1,5: apply fbits_N; exact H.
  1: destruct b; lia. 1: destruct m; lia. 1: apply u64_lt; exact utf8.
  destruct H as [[H1 H2] _]. split; [exact H1|]. destruct w; exact H2.
Qed.
Lemma read_cline ps : Forall (lpart_ok utf8) ps -> (N.of_nat (List.length (lparts_bytes ps)) < 2 ^ 32)%N ->
  exists p, read_message (line_field utf8) wline_new (lparts_bytes ps) = Some p /\ lmeans ps p.
Proof.
  intros H HL. assert (B := bounded_ok lpart_field ps HL). unfold read_message, lparts_bytes. rewrite <- (map_map lpart_field write_field), parse_write_fields; [apply read_lparts; assumption|].
  apply Forall_forall. intros f Hf. apply in_map_iff in Hf as (x & <- & Hx). rewrite Forall_forall in H, B. specialize (H x Hx). specialize (B _ (in_map lpart_field _ _ Hx)).
  destruct x as [s|s|es|z|num w]; cbn [lpart_field lpart_ok] in *; try (split; [cbn; lia|]; cbn [snd wire_ok]).
  1,2,3: exact (B _ eq_refl). 1: apply u64_lt; exact utf8.
  destruct H as [[H1 H2] _]. split; [exact H1|]. destruct w; exact H2.
Qed.
Definition citem_field (i : citem) : N * wire :=
  match i with CPoint ps => (2%N, WLen (pparts_bytes ps)) | CLine ls => (3%N, WLen (lparts_bytes ls)) | COther num w => (num, w) end.
Lemma merge_citems is : forall pl, Forall (citem_ok utf8) is -> exists ps ls,
  merge_all (payload_field utf8) pl (map citem_field is) = Some (fst pl ++ ps, snd pl ++ ls) /\ Forall2 pmeans (cpoints is) ps /\ Forall2 lmeans (clines is) ls.
Proof.
  induction is as [|i is IH]; intros pl H.
  - exists [], []. cbn. rewrite !app_nil_r. destruct pl. repeat split; constructor.
  - inversion H as [|? ? Hi His]; subst. cbn [map merge_all]. destruct i as [p|l|num w]; cbn [citem_field citem_ok] in *.
    + destruct Hi as [H1 H2]. destruct (read_cpoint p H1 H2) as (q & E & M). unfold payload_field at 1. rewrite E.
      destruct (IH (fst pl ++ [q], snd pl) His) as (ps & ls & E' & F1 & F2). exists (q :: ps), ls. rewrite E'. cbn [fst snd]. rewrite <- app_assoc. split; [reflexivity|]. split; [constructor; assumption|assumption].
    + destruct Hi as [H1 H2]. destruct (read_cline l H1 H2) as (q & E & M). unfold payload_field at 1. rewrite E.
      destruct (IH (fst pl, snd pl ++ [q]) His) as (ps & ls & E' & F1 & F2). exists ps, (q :: ls). rewrite E'. cbn [fst snd]. rewrite <- app_assoc. split; [reflexivity|]. split; [assumption|constructor; assumption].
    + destruct Hi as (_ & N2 & N3).
      assert (E : payload_field utf8 pl (num, w) = Some pl) by (cbn [payload_field]; destruct num as [|[[]|[]|]]; try reflexivity; congruence).
      rewrite E. exact (IH pl His).
Qed.
Lemma read_citems is : Forall (citem_ok utf8) is -> exists ps ls,
  parse_payload utf8 (List.concat (map citem_bytes is)) = Some (ps, ls) /\ Forall2 pmeans (cpoints is) ps /\ Forall2 lmeans (clines is) ls.
Proof.
  intros H. unfold parse_payload, read_message.
  replace (map citem_bytes is) with (map write_field (map citem_field is)) by (rewrite map_map; apply map_ext; intros []; reflexivity).
  rewrite parse_write_fields; [exact (merge_citems is ([], []) H)|].
  apply Forall_map. eapply Forall_impl; [|exact H]. intros [ps|ls|num w]; cbn [citem_ok citem_field].
  - intros [_ B]. split; [cbn; lia|exact B].
  - intros [_ B]. split; [cbn; lia|exact B].
  - intros [[H1 H2] _]. split; [exact H1|]. destruct w; exact H2.
Qed.
End Client.

(** ** C87 *)
Theorem C87_any_client : forall (Q : QLib) utf8 now (is : list citem), Forall (citem_ok utf8) is ->
  (forall ps, In (CPoint ps) is -> In (PMethod MHistogram) ps -> h_new [fofZ 1; fofZ 10; fofZ 100; fofZ 1000] <> None) ->
  exists points lines,
    handle_payload utf8 now (List.concat (map citem_bytes is)) = (points ++ lines, NOk) /\
    Forall2 (fun ps e => exists p, pmeans ps p /\ point_becomes p e) (filter (fun ps => match samples_said ps with [] => false | _ => true end) (cpoints is)) points /\
    Forall2 (fun ls e => exists l, lmeans ls l /\ line_becomes l e) (clines is) lines.
Proof.
  intros Q utf8 now is H Hh. unfold handle_payload. destruct (read_citems utf8 is H) as (ps & ls & -> & F1 & F2).
  destruct (point_events_ok now ps) as (evs & E & F).
  - clear -F1. induction F1 as [|a b l l' M _ IH]; constructor; [apply M|exact IH].
  - intros p Hp Hm. assert (Hx : exists a, In a (cpoints is) /\ pmeans a p).
    { clear -F1 Hp. induction F1 as [|a b l l' M _ IH]; [destruct Hp|]. destruct Hp as [<-|Hp]; [exists a; cbn; auto|]. destruct (IH Hp) as (c & H1 & H2). exists c. cbn. auto. }
    destruct Hx as (a & Ha & (_ & _ & _ & M4 & _)). unfold cpoints in Ha. apply in_flat_map in Ha as (i & Hi & Ha). destruct i as [q| |]; cbn in Ha; try contradiction. destruct Ha as [->|[]].
    apply (Hh a Hi). destruct (w_method p) as [m|] eqn:Em; cbn in Hm; [|discriminate Hm]. subst m. symmetry in M4.
    assert (L : forall A (l : list A) x, last_said l = Some x -> In x l).
    { clear. induction l as [|y l IH]; [discriminate|]. intros x. cbn. destruct (last_said l); [intros [= ->]; right; apply IH; reflexivity|intros [= ->]; left; reflexivity]. }
    apply L in M4. apply in_flat_map in M4 as (x & Hx & Hx'). destruct x; cbn in Hx'; try contradiction. destruct Hx' as [->|[]]. exact Hx.
  - rewrite E. exists evs, (map line_event ls). split; [reflexivity|]. split.
    + clear -F1 F. revert evs F. induction F1 as [|a b l l' M _ IH]; intros evs F; cbn [filter] in *; [inversion F; constructor|].
      assert (Eq : has_sample b = match samples_said a with [] => false | _ => true end) by (unfold has_sample; destruct M as (_ & -> & _); reflexivity).
      rewrite <- Eq. destruct (has_sample b); [|apply IH; exact F]. inversion F; subst. constructor; [exists b; auto|apply IH; assumption].
    + clear -F2. induction F2 as [|a b l l' M _ IH]; cbn; constructor; [|exact IH]. exists b. split; [exact M|]. apply line_event_ok. apply M.
Qed.
(** Samples packed or not, in how many fields, make no difference. *)
Theorem C87_packing : forall (Q : QLib) utf8 ps ps', Forall (ppart_ok utf8) ps -> Forall (ppart_ok utf8) ps' ->
  (N.of_nat (List.length (pparts_bytes ps)) < 2 ^ 32)%N -> (N.of_nat (List.length (pparts_bytes ps')) < 2 ^ 32)%N ->
  filter (fun x => match x with PPacked _ | POne _ => false | _ => true end) ps = filter (fun x => match x with PPacked _ | POne _ => false | _ => true end) ps' ->
  samples_said ps = samples_said ps' ->
  exists p p', read_message (point_field utf8) wpoint_new (pparts_bytes ps) = Some p /\ read_message (point_field utf8) wpoint_new (pparts_bytes ps') = Some p' /\
    (forall k, tm_get k (w_meta p) = tm_get k (w_meta p')) /\ w_name p = w_name p' /\ w_samples p = w_samples p' /\ w_persisted p = w_persisted p' /\ w_method p = w_method p' /\ w_ts p = w_ts p' /\ w_bounds p = w_bounds p'.
Proof.
  intros Q utf8 ps ps' H H' L L' E Es. destruct (read_cpoint utf8 ps H L) as (p & R & M). destruct (read_cpoint utf8 ps' H' L') as (p' & R' & M').
  exists p, p'. split; [exact R|]. split; [exact R'|]. destruct M as (M1 & M2 & M3 & M4 & [_ M5] & M6 & M7). destruct M' as (M1' & M2' & M3' & M4' & [_ M5'] & M6' & M7').
  assert (G : forall A (f : ppart -> list A), (forall l, f (PPacked l) = []) -> (forall x, f (POne x) = []) -> flat_map f ps = flat_map f ps').
  { intros A f F1 F2. assert (K : forall l, flat_map f l = flat_map f (filter (fun x => match x with PPacked _ | POne _ => false | _ => true end) l)).
    { induction l as [|x l IH]; [reflexivity|]. destruct x; cbn [filter flat_map]; rewrite IH, ?F1, ?F2; reflexivity. }
    rewrite K, E, <- K. reflexivity. }
  rewrite M1, M2, M3, M4, M6, M7, M1', M2', M3', M4', M6', M7'. repeat split; try (f_equal; apply G; reflexivity); try exact Es; [|apply G; reflexivity].
  intros k. rewrite M5, M5'. f_equal. apply G; reflexivity.
Qed.
Example C87_ex : let parts := [POther 9 (WVarint 3); PTag [EKey "k"; EValue "old"]; POne fone; PTime 5000; PName "x"; PPacked [fofZ 2; fofZ 3]; PTag [EValue "x"; EOther 7 (WVarint 1); EKey "k"; EValue "new"]; PTag [EKey "bare"]; PMethod MSum; PName "a"] in
  Forall (citem_ok anyutf) [CPoint parts; CLine [LValue "v"; LPath "p"]; COther 1 (WVarint 7)] /\
  handle_payload (Q := xQ) anyutf 0 (List.concat (map citem_bytes [CPoint parts; CLine [LValue "v"; LPath "p"]; COther 1 (WVarint 7)])) =
    ([ETelemetry (pt "a" (VSum (fofZ 6)) false (Some [("k", "new"); ("bare", "")]) 5); ELog (mkLog 0 "p" "v" [] None)], NOk).
Proof.
  cbv zeta. split.
  - repeat (constructor; [cbn; repeat split; try lia; try discriminate; repeat constructor; try reflexivity; try lia|]). constructor.
  - reflexivity.
Qed.

Print Assumptions C87_any_client.
Print Assumptions C87_packing.
