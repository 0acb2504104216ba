(** * Proofs about the elasticsearch sink. *)
From Verif Require Import Base BaseFacts TelemetryModel TelemetrySpec TelemetryProofs ElasticModel ElasticSpec.
Open Scope string_scope. Open Scope list_scope. Open Scope nat_scope.

Lemma filter_filter {A} (f g : A -> bool) l : filter f (filter g l) = filter (fun x => g x && f x) l.
Proof. induction l as [|x l IH]; [reflexivity|]. cbn. destruct (g x); cbn; [destruct (f x); rewrite IH; reflexivity|assumption]. Qed.
Lemma filter_map {A B} (f : B -> bool) (g : A -> B) l : filter f (map g l) = map g (filter (fun x => f (g x)) l).
Proof. induction l as [|x l IH]; [reflexivity|]. cbn. destruct (f (g x)); cbn; rewrite IH; reflexivity. Qed.
Lemma filter_all {A} (f : A -> bool) l : (forall x, In x l -> f x = true) -> filter f l = l.
Proof.
  induction l as [|x l IH]; intros H; [reflexivity|]. cbn. rewrite (H x) by (left; reflexivity). f_equal. apply IH. intros y Hy. apply H. right; assumption.
Qed.
Lemma NoDup_map_filter {A B} (g : A -> B) f l : NoDup (map g l) -> NoDup (map g (filter f l)).
Proof.
  induction l as [|x l IH]; intros H; [constructor|]. cbn in *. inversion H as [|? ? Hn Hd]; subst. destruct (f x); cbn; [|auto].
  constructor; [|auto]. intros Hin. apply Hn. apply in_map_iff in Hin as (y & Hy & Hi). apply filter_In in Hi as [Hi _]. apply in_map_iff. eauto.
Qed.

Lemma find_split u b : es_find u b < List.length b -> exists b1 m b2, b = b1 ++ m :: b2 /\ es_find u b = List.length b1 /\ el_uuid m = u.
Proof.
  induction b as [|m b IH]; cbn; [lia|]. destruct (N.eqb_spec (el_uuid m) u) as [E|E].
  - intros _. exists [], m, b. auto.
  - intros H. destruct IH as (b1 & m' & b2 & E1 & E2 & E3); [lia|]. exists (m :: b1), m', b2. subst b. cbn. auto.
Qed.
Lemma find_In u b : In u (map el_uuid b) -> es_find u b < List.length b.
Proof.
  induction b as [|m b IH]; cbn; [tauto|]. destruct (N.eqb_spec (el_uuid m) u) as [E|E]; [lia|]. intros [H|H]; [congruence|]. specialize (IH H). lia.
Qed.
Definition uis (u : N) (m : eline) : bool := N.eqb (el_uuid m) u.
Lemma split_others u b1 m b2 : NoDup (map el_uuid (b1 ++ m :: b2)) -> el_uuid m = u ->
  (forall x, In x b1 -> uis u x = false) /\ (forall x, In x b2 -> uis u x = false).
Proof.
  rewrite map_app. cbn. intros H E. subst u. apply NoDup_remove_2 in H. split; intros x Hx; apply N.eqb_neq; intros Hc; apply H; apply in_or_app; [left|right]; rewrite <- Hc; apply in_map; assumption.
Qed.
Lemma item_ok e u : NoDup (map el_uuid (es_buffer e)) -> forall e', es_item e (Some u, true) = Some e' ->
  In u (map el_uuid (es_buffer e)) /\ e' = es_set_buffer (filter (fun m => negb (uis u m)) (es_buffer e)) 1 0 e.
Proof.
  intros Hd e' E. unfold es_item in E. cbn [fst snd] in E. destruct (Nat.ltb_spec (es_find u (es_buffer e)) (List.length (es_buffer e))) as [Hl|Hl]; [|discriminate].
  injection E as <-. destruct (find_split _ _ Hl) as (b1 & m & b2 & E1 & E2 & E3). rewrite E2, E1. rewrite E1 in Hd. destruct (split_others u b1 m b2 Hd E3) as [H1 H2]. split.
  - rewrite map_app. apply in_or_app. right. left. assumption.
  - f_equal. rewrite remove_at_app, filter_app. cbn. unfold uis at 2. rewrite E3, N.eqb_refl. cbn.
    rewrite !filter_all; [reflexivity|intros x Hx; rewrite (H2 x Hx); reflexivity|intros x Hx; rewrite (H1 x Hx); reflexivity].
Qed.
Definition bump_if (u : N) (m : eline) : eline := if uis u m then bump m else m.
Lemma map_id_in {A} (f : A -> A) l : (forall x, In x l -> f x = x) -> map f l = l.
Proof. intros H. rewrite <- (map_id l) at 2. apply map_ext_in. assumption. Qed.
Lemma item_err e u : NoDup (map el_uuid (es_buffer e)) -> forall e', es_item e (Some u, false) = Some e' ->
  In u (map el_uuid (es_buffer e)) /\
  e' = es_set_buffer (filter (fun m => negb (uis u m && (es_limit e <? el_attempts m)%N)) (map (bump_if u) (es_buffer e))) 0 1 e.
Proof.
  intros Hd e' E. unfold es_item in E. cbn [fst snd] in E. destruct (Nat.ltb_spec (es_find u (es_buffer e)) (List.length (es_buffer e))) as [Hl|Hl]; [|discriminate].
  destruct (find_split _ _ Hl) as (b1 & m & b2 & E1 & E2 & E3). rewrite E2, E1, update_at_app in E. rewrite nth_error_app2, Nat.sub_diag in E by lia. cbn [nth_error] in E.
  rewrite E1 in *. destruct (split_others u b1 m b2 Hd E3) as [H1 H2]. split.
  { rewrite map_app. apply in_or_app. right. left. assumption. }
  injection E as <-. f_equal. rewrite map_app. cbn [map].
  rewrite (map_id_in (bump_if u) b1), (map_id_in (bump_if u) b2) by (intros x Hx; unfold bump_if; first [rewrite (H1 x Hx)|rewrite (H2 x Hx)]; reflexivity).
  assert (Hu : uis u m = true) by (unfold uis; rewrite E3; apply N.eqb_refl).
  unfold bump_if. rewrite Hu. rewrite filter_app. cbn [filter]. assert (Hu' : uis u (bump m) = true) by exact Hu. rewrite Hu'. cbn [andb].
  rewrite !filter_all by (intros x Hx; first [rewrite (H1 x Hx)|rewrite (H2 x Hx)]; reflexivity).
  change (el_attempts (bump m)) with (succ8 (el_attempts m)). destruct (es_limit e <? succ8 (el_attempts m))%N; cbn [negb]; [rewrite remove_at_app; reflexivity|reflexivity].
Qed.
Lemma bump_if_uuids u b : map el_uuid (map (bump_if u) b) = map el_uuid b.
Proof. rewrite map_map. apply map_ext. intros m. unfold bump_if. destruct (uis u m); reflexivity. Qed.

(** ** the invariant *)
Definition view (its : list (option N * bool)) (d : N * logline) : eline := mkEline (es_refusals (fst d) its) (fst d) (snd d).
Record inv (limit : N) (ds : list (N * logline)) (its : list (option N * bool)) (e : es) : Prop := mkInv {
  inv_limit : es_limit e = limit;
  inv_buffer : es_buffer e = map (view its) (es_open_lines limit ds its);
  inv_known : forall u b, In (Some u, b) its -> In u (map fst ds);
  inv_delivered : es_delivered e = N.of_nat (List.length (filter snd its));
  inv_failed : es_failed e = N.of_nat (List.length (filter (fun it => negb (snd it)) its));
}.
Lemma view_uuids its l : map el_uuid (map (view its) l) = map fst l.
Proof. rewrite map_map. reflexivity. Qed.
Lemma inv_NoDup limit ds its e : inv limit ds its e -> NoDup (map fst ds) -> NoDup (map el_uuid (es_buffer e)).
Proof. intros H Hd. rewrite (inv_buffer _ _ _ _ H), view_uuids. apply NoDup_map_filter. assumption. Qed.
Lemma acked_app u a b : es_acked u (a ++ b) = es_acked u a || es_acked u b.
Proof. apply existsb_app. Qed.
Lemma refusals_app u a b : es_refusals u (a ++ b) = (es_refusals u a + es_refusals u b)%N.
Proof. unfold es_refusals. rewrite filter_app, app_length. lia. Qed.
Lemma refusals_one u v b : es_refusals u [(Some v, b)] = (if N.eqb v u && negb b then 1 else 0)%N.
Proof. unfold es_refusals, mentions. cbn. destruct (N.eqb v u), b; reflexivity. Qed.
Lemma acked_one u v b : es_acked u [(Some v, b)] = N.eqb v u && b.
Proof. unfold es_acked, mentions. cbn. destruct (N.eqb v u), b; reflexivity. Qed.

Lemma inv_item limit ds its e it e' : (limit < 255)%N -> NoDup (map fst ds) -> inv limit ds its e -> es_item e it = Some e' ->
  inv limit ds (its ++ [it]) e'.
Proof.
  intros Hlim Hd Hi E. destruct it as [[u|] ok]; [|discriminate]. pose proof (inv_NoDup _ _ _ _ Hi Hd) as Hn.
  assert (Hu : In u (map el_uuid (es_buffer e)) -> forall v b, In (Some v, b) (its ++ [(Some u, ok)]) -> In v (map fst ds)).
  { intros Hin v b Hv. apply in_app_or in Hv as [Hv|[Hv|[]]]; [apply (inv_known _ _ _ _ Hi _ _ Hv)|]. injection Hv as <- <-.
    rewrite (inv_buffer _ _ _ _ Hi), view_uuids in Hin. apply in_map_iff in Hin as (d & <- & Hin). apply filter_In in Hin as [Hin _]. apply in_map. assumption. }
  destruct ok.
  - destruct (item_ok e u Hn e' E) as [H1 ->]. constructor.
    + apply Hi.
    + unfold es_set_buffer. cbn [es_buffer]. rewrite (inv_buffer _ _ _ _ Hi), filter_map. unfold es_open_lines. rewrite filter_filter.
      etransitivity; [apply map_ext|f_equal; apply filter_ext].
      * intros d. unfold view. rewrite refusals_app, refusals_one, andb_false_r, N.add_0_r. reflexivity.
      * intros d. rewrite acked_app, acked_one, refusals_app, refusals_one, andb_false_r, N.add_0_r, andb_true_r, N.eqb_sym.
        unfold uis, view. cbn [el_uuid]. destruct (es_acked (fst d) its), (es_refusals (fst d) its <=? limit)%N, (N.eqb (fst d) u); reflexivity.
    + apply Hu. assumption.
    + cbn. rewrite (inv_delivered _ _ _ _ Hi), filter_app, app_length. cbn. lia.
    + cbn. rewrite (inv_failed _ _ _ _ Hi), filter_app, app_length. cbn. lia.
  - destruct (item_err e u Hn e' E) as [H1 ->]. constructor.
    + apply Hi.
    + unfold es_set_buffer. cbn [es_buffer]. rewrite (inv_buffer _ _ _ _ Hi), (inv_limit _ _ _ _ Hi). rewrite map_map, filter_map.
      unfold es_open_lines. rewrite filter_filter.
      assert (V : forall d, (es_refusals (fst d) its <=? limit)%N = true -> bump_if u (view its d) = view (its ++ [(Some u, false)]) d).
      { intros d Hr. unfold bump_if, view, uis. cbn [el_uuid]. rewrite refusals_app, refusals_one, (N.eqb_sym u). destruct (N.eqb (fst d) u); cbn [andb negb].
        - unfold bump, succ8. cbn. apply N.leb_le in Hr. rewrite N.mod_small by lia. reflexivity.
        - rewrite N.add_0_r. reflexivity. }
      etransitivity; [apply map_ext_in|f_equal; apply filter_ext].
      * intros d Hdi. apply filter_In in Hdi as [_ Hdi]. apply andb_prop in Hdi as [Hdi _]. apply andb_prop in Hdi as [_ Hdi]. apply V. assumption.
      * intros d. rewrite acked_app, acked_one, andb_false_r, orb_false_r, refusals_app, refusals_one, andb_true_r, (N.eqb_sym u).
        destruct (es_acked (fst d) its); cbn [negb andb]; [reflexivity|].
        destruct (es_refusals (fst d) its <=? limit)%N eqn:Er; cbn [andb].
        -- rewrite (V d Er). unfold uis, view. cbn [el_uuid el_attempts]. rewrite refusals_app, refusals_one, andb_true_r, (N.eqb_sym u).
           destruct (N.eqb (fst d) u); cbn [andb].
           ++ apply N.leb_le in Er. destruct (N.ltb_spec limit (es_refusals (fst d) its + 1)), (N.leb_spec (es_refusals (fst d) its + 1) limit); cbn; auto; lia.
           ++ rewrite N.add_0_r, Er. reflexivity.
        -- symmetry. apply N.leb_gt. apply N.leb_gt in Er. destruct (N.eqb (fst d) u); lia.
    + apply Hu. assumption.
    + cbn. rewrite (inv_delivered _ _ _ _ Hi), filter_app, app_length. cbn. lia.
    + cbn. rewrite (inv_failed _ _ _ _ Hi), filter_app, app_length. cbn. lia.
Qed.
Lemma inv_items limit ds : (limit < 255)%N -> NoDup (map fst ds) -> forall its2 its e e', inv limit ds its e -> es_items e its2 = Some e' ->
  inv limit ds (its ++ its2) e'.
Proof.
  intros Hl Hd its2. induction its2 as [|it its2 IH]; intros its e e' Hi E.
  - cbn in E. injection E as <-. rewrite app_nil_r. assumption.
  - cbn [es_items] in E. destruct (es_item e it) as [e1|] eqn:E1; [|discriminate].
    specialize (IH (its ++ [it]) e1 e' (inv_item _ _ _ _ _ _ Hl Hd Hi E1) E). rewrite <- app_assoc in IH. exact IH.
Qed.

Section Run.
Variable render : Z -> option (string * string).
Variable uuid_str : N -> string.

Lemma inv_flush limit ds its e a e' req : (limit < 255)%N -> NoDup (map fst ds) -> inv limit ds its e -> es_flush render uuid_str e a = Some (e', req) ->
  inv limit ds (its ++ match req with Some _ => match a with ESItems i => i | _ => [] end | None => [] end) e'.
Proof.
  intros Hl Hd Hi E. unfold es_flush in E. destruct (es_buffer e) as [|m0 b0] eqn:Eb.
  - injection E as <- <-. rewrite app_nil_r. assumption.
  - rewrite <- Eb in E. destruct (es_body render uuid_str e (es_buffer e)) as [body|]; [|discriminate]. destruct a as [| |items].
    + injection E as <- <-. rewrite app_nil_r. assumption.
    + injection E as <- <-. rewrite app_nil_r. destruct Hi. constructor; assumption.
    + destruct (es_items _ items) as [e1|] eqn:Ei; [|discriminate]. injection E as <- <-.
      eapply inv_items; [assumption|assumption| |exact Ei]. destruct Hi. constructor; assumption.
Qed.
Lemma open_lines_app limit a b its : es_open_lines limit (a ++ b) its = es_open_lines limit a its ++ es_open_lines limit b its.
Proof. apply filter_app. Qed.
Lemma inv_deliver limit ds its e u l : inv limit ds its e -> ~ In u (map fst ds) -> inv limit (ds ++ [(u, l)]) its (es_deliver e u l).
Proof.
  intros Hi Hu.
  assert (Hnone : forall b it, In it its -> mentions u b it = false).
  { intros b [[v|] ok] Hin; unfold mentions; cbn; [|reflexivity]. destruct (N.eqb_spec v u) as [->|]; [|reflexivity].
    exfalso. apply Hu. apply (inv_known _ _ _ _ Hi u ok Hin). }
  assert (Ha : es_acked u its = false).
  { unfold es_acked. destruct (existsb (mentions u true) its) eqn:E; [|reflexivity]. apply existsb_exists in E as (it & Hin & E). rewrite (Hnone true it Hin) in E. discriminate. }
  assert (Hr : es_refusals u its = 0%N).
  { unfold es_refusals. rewrite (filter_ext_in _ (fun _ => false)) by (intros it Hin; apply Hnone; assumption).
    clear. induction its as [|x l' IH]; [reflexivity|]. exact IH. }
  destruct Hi as [I1 I2 I3 I4 I5]. constructor; cbn [es_limit es_buffer es_deliver es_delivered es_failed]; auto.
  - rewrite open_lines_app, map_app, I2. f_equal. unfold es_open_lines. cbn [filter fst]. rewrite Ha, Hr. cbn [negb andb]. assert (Hz : (0 <=? limit)%N = true) by (apply N.leb_le; lia). rewrite Hz. cbn [map]. unfold view. cbn [fst snd]. rewrite Hr. reflexivity.
  - intros v b Hin. rewrite map_app. apply in_or_app. left. apply (I3 v b Hin).
Qed.
Lemma inv_run limit : (limit < 255)%N -> forall ops ds its e e' log, NoDup (map fst (ds ++ es_deliveries ops)) -> inv limit ds its e ->
  es_run render uuid_str e ops = Some (e', log) -> inv limit (ds ++ es_deliveries ops) (its ++ es_received log) e'.
Proof.
  intros Hl. induction ops as [|op ops IH]; intros ds its e e' log Hd Hi E.
  - cbn in E. injection E as <- <-. cbn. rewrite !app_nil_r. assumption.
  - destruct op as [u l|a].
    + cbn [es_run] in E. cbn [es_deliveries flat_map app] in *. fold (es_deliveries ops) in *.
      assert (Eq : ds ++ (u, l) :: es_deliveries ops = (ds ++ [(u, l)]) ++ es_deliveries ops) by (rewrite <- app_assoc; reflexivity).
      rewrite Eq in *. apply IH with (e := es_deliver e u l); [assumption| |assumption].
      apply inv_deliver; [assumption|]. rewrite <- app_assoc, map_app in Hd. cbn in Hd. apply NoDup_remove_2 in Hd. intros Hin. apply Hd. apply in_or_app. left; assumption.
    + cbn [es_run] in E. destruct (es_flush render uuid_str e a) as [[e1 req]|] eqn:E1; [|discriminate].
      destruct (es_run render uuid_str e1 ops) as [[e2 log2]|] eqn:E2; [|discriminate]. injection E as <- <-.
      change (es_deliveries (ESFlush a :: ops)) with (es_deliveries ops) in *.
      assert (Hd1 : NoDup (map fst ds)).
      { rewrite map_app in Hd. clear -Hd. induction (map fst ds) as [|x l IHl]; [constructor|]. cbn in Hd. inversion Hd; subst. constructor; [|auto].
        intros Hin. apply H1. apply in_or_app. left; assumption. }
      pose proof (inv_flush _ _ _ _ _ _ _ Hl Hd1 Hi E1) as Hi1. specialize (IH ds _ _ _ _ Hd Hi1 E2).
      destruct req as [b|].
      * cbn [es_received flat_map snd]. fold (es_received log2). rewrite app_assoc. exact IH.
      * rewrite app_nil_r in IH. exact IH.
Qed.

(** ** requests *)
Lemma body_ids e ms body : es_body render uuid_str e ms = Some body -> map a_id body = map el_uuid ms.
Proof.
  revert body. induction ms as [|m ms IH]; intros body E; cbn in E; [injection E as <-; reflexivity|].
  destruct (es_action render uuid_str e m) as [a|] eqn:Ea; [|discriminate]. destruct (es_body render uuid_str e ms) as [b|]; [|discriminate].
  injection E as <-. cbn. rewrite (IH b eq_refl). f_equal. unfold es_action in Ea. destruct (render _) as [[d f]|]; [|discriminate]. injection Ea as <-. reflexivity.
Qed.
Lemma body_actions e ms body : es_body render uuid_str e ms = Some body -> Forall2 (fun m a => es_action render uuid_str e m = Some a) ms body.
Proof.
  revert body. induction ms as [|m ms IH]; intros body E; cbn in E; [injection E as <-; constructor|].
  destruct (es_action render uuid_str e m) as [a|] eqn:Ea; [|discriminate]. destruct (es_body render uuid_str e ms) as [b|]; [|discriminate].
  injection E as <-. constructor; auto.
Qed.
Lemma body_some e ms : Forall (fun m => render (l_time (el_line m)) <> None) ms -> es_body render uuid_str e ms <> None.
Proof.
  induction 1 as [|m ms Hm _ IH]; cbn; [discriminate|]. unfold es_action. destruct (render (l_time (el_line m))) as [[d f]|]; [|contradiction].
  destruct (es_body render uuid_str e ms); [discriminate|contradiction].
Qed.

Lemma doc_inserts m : NoDup (map fst m) -> forall d k,
  alookup seqb k (fold_left doc_insert m d) = match alookup seqb k m with Some v => Some v | None => alookup seqb k d end.
Proof.
  induction m as [|[a b] m IH]; intros Hm d k; [reflexivity|]. cbn in Hm. inversion Hm as [|? ? Hn Hm']; subst.
  cbn [fold_left]. rewrite IH by assumption. unfold doc_insert. cbn [fst snd alookup]. destruct (seqb k a) eqn:E.
  - apply seqb_eq in E. subst k. destruct (alookup seqb a m) as [v|] eqn:Ev.
    + exfalso. apply Hn. apply (alookup_In seqb seqb_eq) in Ev. apply (in_map fst) in Ev. exact Ev.
    + apply (alookup_ainsert_eq seqb seqb_eq).
  - destruct (alookup seqb k m); [reflexivity|]. apply (alookup_ainsert_ne seqb seqb_eq). intros ->. rewrite (keqb_refl seqb seqb_eq) in E. discriminate.
Qed.
End Run.
