From Verif Require Import Base BaseFacts TopologyModel TopologySpec.
Open Scope string_scope. Open Scope list_scope. Open Scope nat_scope.

Section Edges.
Context {M : Type}.
Definition edge (a : adjacency M) (x y : string) : option (option M) :=
  match alookup seqb x a with Some m => alookup seqb y m | None => None end.
Definition adj_wf (a : adjacency M) : Prop :=
  NoDup (map fst a) /\ forall x m, alookup seqb x a = Some m -> NoDup (map fst m) /\ m <> [].

Lemma ainsert_not_nil {V} k (v : V) m : ainsert seqb k v m <> [].
Proof. destruct m as [|[k' v'] m]; cbn; [discriminate|]. destruct (seqb k k'); discriminate. Qed.
Lemma add_wf f t md a : adj_wf a -> adj_wf (add_asymmetric_edge f t md a).
Proof.
  intros [H1 H2]. unfold add_asymmetric_edge. split; [apply ainsert_NoDup; [apply seqb_eq|assumption]|].
  intros x m. destruct (string_dec f x) as [->|Hne].
  - rewrite (alookup_ainsert_eq seqb seqb_eq). intros [= <-]. split; [|apply ainsert_not_nil].
    apply ainsert_NoDup; [apply seqb_eq|]. destruct (alookup seqb x a) as [m|] eqn:E; [apply (H2 x m E)|constructor].
  - rewrite (alookup_ainsert_ne seqb seqb_eq) by assumption. apply H2.
Qed.
Lemma edge_add_eq f t md a : edge (add_asymmetric_edge f t md a) f t = Some md.
Proof. unfold edge, add_asymmetric_edge. rewrite (alookup_ainsert_eq seqb seqb_eq). apply alookup_ainsert_eq, seqb_eq. Qed.
Lemma edge_add_ne f t md a x y : (x <> f \/ y <> t) -> edge (add_asymmetric_edge f t md a) x y = edge a x y.
Proof.
  intros H. unfold edge, add_asymmetric_edge. destruct (string_dec f x) as [->|Hne].
  - rewrite (alookup_ainsert_eq seqb seqb_eq). rewrite (alookup_ainsert_ne seqb seqb_eq) by (destruct H; congruence).
    destruct (alookup seqb x a); reflexivity.
  - rewrite (alookup_ainsert_ne seqb seqb_eq) by assumption. reflexivity.
Qed.
Lemma edge_pop_eq id a y : adj_wf a -> edge (aremove seqb id a) id y = None.
Proof. intros [H _]. unfold edge. rewrite (alookup_aremove_eq seqb seqb_eq) by assumption. reflexivity. Qed.
Lemma edge_pop_ne id a x y : x <> id -> edge (aremove seqb id a) x y = edge a x y.
Proof. intros H. unfold edge. rewrite (alookup_aremove_ne seqb seqb_eq) by congruence. reflexivity. Qed.
Lemma pop_wf id a : adj_wf a -> adj_wf (aremove seqb id a).
Proof.
  intros [H1 H2]. split; [apply aremove_NoDup; assumption|]. intros x m. destruct (string_dec id x) as [->|Hne].
  - rewrite (alookup_aremove_eq seqb seqb_eq) by assumption. discriminate.
  - rewrite (alookup_aremove_ne seqb seqb_eq) by assumption. apply H2.
Qed.
Lemma edge_node a x y o : edge a x y = Some o -> exists m, alookup seqb x a = Some m /\ In (y, o) m.
Proof.
  unfold edge. destruct (alookup seqb x a) as [m|]; [|discriminate]. intros H. exists m. split; [reflexivity|]. apply (alookup_In seqb seqb_eq). exact H.
Qed.
Lemma node_edge a x m y o : adj_wf a -> alookup seqb x a = Some m -> In (y, o) m -> edge a x y = Some o.
Proof. intros [_ H] E Hin. unfold edge. rewrite E. apply (In_alookup seqb seqb_eq); [apply (H x m E)|exact Hin]. Qed.

Lemma add_edges_wf f ts : forall a, adj_wf a -> adj_wf (add_edges f ts None a).
Proof. induction ts as [|t ts IH]; intros a H; cbn; [assumption|]. apply IH, add_wf, add_wf, H. Qed.

(** keys without and with metadata *)
Lemma filter_nodes_spec id a l : adj_wf a -> filter_nodes id a = Some l -> lists l (fun u => edge a id u = Some None).
Proof.
  intros H. unfold filter_nodes. destruct (alookup seqb id a) as [m|] eqn:E; [|discriminate]. intros [= <-]. destruct H as [H1 H2]. destruct (H2 _ _ E) as [Hm _]. split.
  - clear -Hm. induction m as [|[k o] m IH]; cbn; [constructor|]. inversion Hm as [|? ? H1 H2]; subst. destruct o; cbn; [apply IH; assumption|].
    constructor; [|apply IH; assumption]. intros Hin. apply H1. apply in_map_iff in Hin as (kv & E & Hin). apply filter_In in Hin as [Hin _]. apply in_map_iff. eauto.
  - intros u. rewrite in_map_iff. split.
    + intros ([k o] & <- & Hin). apply filter_In in Hin as [Hin Ho]. cbn in *. destruct o; [discriminate|]. apply (node_edge a id m); [split; assumption|assumption|assumption].
    + intros Hu. apply edge_node in Hu as (m' & E' & Hin). rewrite E in E'. injection E' as <-. exists (u, None). split; [reflexivity|]. apply filter_In. split; [assumption|reflexivity].
Qed.
Lemma pop_nodes_spec id a : adj_wf a -> lists (fst (pop_nodes id a)) (fun u => edge a id u <> None) /\ snd (pop_nodes id a) = aremove seqb id a.
Proof.
  intros H. unfold pop_nodes, pop. destruct (alookup seqb id a) as [m|] eqn:E; cbn; (split; [|reflexivity]).
  - destruct H as [H1 H2]. split; [apply (H2 _ _ E)|]. intros u. unfold edge. rewrite E.
    destruct (alookup seqb u m) as [o|] eqn:Eu.
    + split; [discriminate|]. intros _. apply (alookup_In seqb seqb_eq) in Eu. apply in_map_iff. exists (u, o). auto.
    + apply (alookup_None seqb seqb_eq) in Eu. tauto.
  - split; [constructor|]. intros u. unfold edge. rewrite E. cbn. tauto.
Qed.
End Edges.

Lemma pop_metadata_spec id (a : adjacency string) : adj_wf a -> (forall y o, edge a id y = Some (Some o) -> o = y) ->
  lists (fst (pop_metadata id a)) (fun u => edge a id u = Some (Some u)) /\ snd (pop_metadata id a) = aremove seqb id a.
Proof.
  intros H Hs. unfold pop_metadata, pop. destruct (alookup seqb id a) as [m|] eqn:E; cbn; (split; [|reflexivity]).
  - assert (Hm : forall y o, In (y, Some o) m -> o = y) by (intros y o Hin; apply Hs; apply (node_edge a id m); assumption).
    destruct (proj2 H _ _ E) as [Hn _]. split.
    + clear -Hm Hn. induction m as [|[k o] m IH]; cbn; [constructor|]. inversion Hn as [|? ? H1 H2]; subst.
      assert (IH' := IH (fun y o Hin => Hm y o (or_intror Hin)) H2). destruct o as [v|]; cbn; [|assumption]. constructor; [|assumption].
      pose proof (Hm k v (or_introl eq_refl)) as ->. intros Hin. apply H1. apply in_flat_map in Hin as ([k' o'] & Hin & Ho). cbn in Ho. destruct o' as [v'|]; [|contradiction].
      destruct Ho as [->|[]]. pose proof (Hm k' k (or_intror Hin)) as ->. apply in_map_iff. exists (k', Some k'). auto.
    + intros u. rewrite in_flat_map. split.
      * intros ([k o] & Hin & Ho). cbn in Ho. destruct o as [v|]; [|contradiction]. destruct Ho as [->|[]]. pose proof (Hm k u Hin) as ->. apply (node_edge a id m); assumption.
      * intros Hu. apply edge_node in Hu as (m' & E' & Hin). rewrite E in E'. injection E' as <-. exists (u, Some u). split; [assumption|left; reflexivity].
  - split; [constructor|]. intros u. unfold edge. rewrite E. cbn. split; [tauto|discriminate].
Qed.

(** ** declaring *)
Definition linked (ns : list (string * list string)) (x y : string) : Prop :=
  (exists fw, In (x, fw) ns /\ In y fw) \/ (exists fw, In (y, fw) ns /\ In x fw).
Definition adj_inv (ns : list (string * list string)) (gone : list string) (a : adjacency string) : Prop :=
  adj_wf a /\ forall x y, (edge a x y = Some None \/ edge a x y = None) /\ (edge a x y = Some None <-> ~ In x gone /\ linked ns x y).

Lemma add_edges_edge (f : string) ts : forall (a : adjacency string) x y, (edge a x y = Some None \/ edge a x y = None) ->
  (edge (add_edges f ts None a) x y = Some None \/ edge (add_edges f ts None a) x y = None) /\
  (edge (add_edges f ts None a) x y = Some None <-> edge a x y = Some None \/ (x = f /\ In y ts) \/ (y = f /\ In x ts)).
Proof.
  induction ts as [|t ts IH]; intros a x y H; cbn [add_edges].
  - split; [assumption|]. cbn. tauto.
  - set (a' := add_asymmetric_edge t f None (add_asymmetric_edge f t None a)).
    assert (E : (edge a' x y = Some None /\ ((x = f /\ y = t) \/ (x = t /\ y = f))) \/ (edge a' x y = edge a x y /\ ~ ((x = f /\ y = t) \/ (x = t /\ y = f)))).
    { unfold a'. destruct (string_dec x t) as [->|N1]; [destruct (string_dec y f) as [->|N2]|].
      - left. split; [apply edge_add_eq|tauto].
      - destruct (string_dec t f) as [->|N3]; [destruct (string_dec y f) as [->|N4]; [congruence|]|].
        + right. split; [rewrite !edge_add_ne by tauto; reflexivity|tauto].
        + right. split; [rewrite !edge_add_ne by tauto; reflexivity|tauto].
      - destruct (string_dec x f) as [->|N3]; [destruct (string_dec y t) as [->|N4]|].
        + left. rewrite edge_add_ne by tauto. split; [apply edge_add_eq|tauto].
        + right. rewrite !edge_add_ne by tauto. split; [reflexivity|tauto].
        + right. rewrite !edge_add_ne by tauto. split; [reflexivity|tauto]. }
    assert (Ha : edge a' x y = Some None \/ edge a' x y = None) by (destruct E as [[E _]|[E _]]; [tauto|rewrite E; assumption]).
    destruct (IH a' x y Ha) as [I1 I2]. split; [assumption|]. rewrite I2. cbn [In].
    destruct E as [[E1 E2]|[E1 E2]].
    + split; [|tauto]. intros _. destruct E2 as [[-> ->]|[-> ->]]; tauto.
    + rewrite E1. split.
      * tauto.
      * intros [K|[[-> [K|K]]|[-> [K|K]]]]; try tauto; subst; tauto.
Qed.
Lemma declare_edges ns a f ts : adj_inv ns [] a -> adj_inv (ns ++ [(f, ts)]) [] (add_edges f ts None a).
Proof.
  intros [Hw H]. split; [apply add_edges_wf; assumption|]. intros x y. destruct (H x y) as [H1 H2]. destruct (add_edges_edge f ts a x y H1) as [E1 E2].
  split; [assumption|]. rewrite E2, H2. unfold linked. split.
  - intros [[_ [(fw & A & B)|(fw & A & B)]]|[[-> B]|[-> B]]]; (split; [tauto|]).
    + left. exists fw. rewrite in_app_iff. tauto.
    + right. exists fw. rewrite in_app_iff. tauto.
    + left. exists ts. rewrite in_app_iff. cbn. tauto.
    + right. exists ts. rewrite in_app_iff. cbn. tauto.
  - intros [_ [(fw & A & B)|(fw & A & B)]]; apply in_app_or in A as [A|[[= <- <-]|[]]].
    + left. split; [tauto|]. left. eauto.
    + right. left. auto.
    + left. split; [tauto|]. right. eauto.
    + right. right. auto.
Qed.
Lemma adj_inv_nil : adj_inv [] [] [].
Proof.
  split; [split; [constructor|]; intros x m; discriminate|]. intros x y. cbn. split; [tauto|]. split; [discriminate|]. intros [_ [(fw & [] & _)|(fw & [] & _)]].
Qed.

(** what declaring does *)
Record declared (g : config) (w : wiring) : Prop := mkDeclared {
  d_adj : adj_inv (senders_of g) [] (w_adj w);
  d_senders : forall x, alookup seqb x (w_senders w) = Some x <-> receives g x;
  d_senders_only : forall x y, alookup seqb x (w_senders w) = Some y -> y = x;
  d_receivers : w_receivers w = w_senders w;
  d_senders_nd : NoDup (map fst (w_senders w));
  d_topology : forall x, In x (map fst (w_topology w)) <-> receives g x \/ In x (map fst (g_sources g));
  d_flush : w_flush w = [];
  d_sinks : w_sinks w = [];
  d_filters : w_filters w = [];
  d_sources : w_sources w = [];
}.
Lemma fold_sinks l : forall w,
  let w' := fold_left declare_sink l w in
  (forall x y, alookup seqb x (w_senders w') = Some y <-> (In x l /\ y = x) \/ (~ In x l /\ alookup seqb x (w_senders w) = Some y)) /\
  (w_receivers w = w_senders w -> w_receivers w' = w_senders w') /\
  (NoDup (map fst (w_senders w)) -> NoDup (map fst (w_senders w'))) /\
  (forall x, In x (map fst (w_topology w')) <-> In x l \/ In x (map fst (w_topology w))) /\
  w_adj w' = w_adj w /\ w_flush w' = w_flush w /\ w_sinks w' = w_sinks w /\ w_filters w' = w_filters w /\ w_sources w' = w_sources w.
Proof.
  induction l as [|i l IH]; intros w w'; subst w'; cbn [fold_left].
  - repeat split; auto; cbn; tauto.
  - destruct (IH (declare_sink w i)) as (I1 & I2 & I3 & I4 & I5 & I6 & I7 & I8 & I9). cbv zeta in *.
    split; [|split; [|split; [|split; [|auto]]]].
    + intros x y. rewrite I1. cbn [declare_sink w_senders In]. destruct (string_dec i x) as [->|Hne].
      * rewrite (alookup_ainsert_eq seqb seqb_eq). destruct (in_dec string_dec x l); split; intros H.
        -- intuition congruence.
        -- intuition congruence.
        -- destruct H as [H|[_ [= ->]]]; intuition congruence.
        -- right. destruct H as [[_ ->]|H]; intuition congruence.
      * rewrite (alookup_ainsert_ne seqb seqb_eq) by assumption. tauto.
    + intros H. apply I2. cbn. rewrite H. reflexivity.
    + intros H. apply I3. cbn. apply ainsert_NoDup; [apply seqb_eq|assumption].
    + intros x. rewrite I4. cbn. rewrite (ainsert_keys seqb seqb_eq). intuition congruence.
Qed.
Lemma fold_filters l : forall w ns,
  let w' := fold_left declare_filter l w in
  (forall x y, alookup seqb x (w_senders w') = Some y <-> (In x (map fst l) /\ y = x) \/ (~ In x (map fst l) /\ alookup seqb x (w_senders w) = Some y)) /\
  (w_receivers w = w_senders w -> w_receivers w' = w_senders w') /\
  (NoDup (map fst (w_senders w)) -> NoDup (map fst (w_senders w'))) /\
  (forall x, In x (map fst (w_topology w')) <-> In x (map fst l) \/ In x (map fst (w_topology w))) /\
  (adj_inv ns [] (w_adj w) -> adj_inv (ns ++ l) [] (w_adj w')) /\ w_flush w' = w_flush w /\ w_sinks w' = w_sinks w /\ w_filters w' = w_filters w /\ w_sources w' = w_sources w.
Proof.
  induction l as [|[i fw] l IH]; intros w ns w'; subst w'; cbn [fold_left].
  - rewrite app_nil_r. split; [intros; cbn; tauto|]. split; [auto|]. split; [auto|]. split; [intros; cbn; tauto|]. split; [auto|]. auto.
  - destruct (IH (declare_filter w (i, fw)) (ns ++ [(i, fw)])) as (I1 & I2 & I3 & I4 & I5 & I6 & I7 & I8 & I9). cbv zeta in *.
    split; [|split; [|split; [|split; [|split; [|auto]]]]].
    + intros x y. rewrite I1. cbn [declare_filter w_senders In map fst]. destruct (string_dec i x) as [->|Hne].
      * rewrite (alookup_ainsert_eq seqb seqb_eq). destruct (in_dec string_dec x (map fst l)); split; intros H.
        -- intuition congruence.
        -- intuition congruence.
        -- destruct H as [H|[_ [= ->]]]; intuition congruence.
        -- right. destruct H as [[_ ->]|H]; intuition congruence.
      * rewrite (alookup_ainsert_ne seqb seqb_eq) by assumption. tauto.
    + intros H. apply I2. cbn. rewrite H. reflexivity.
    + intros H. apply I3. cbn. apply ainsert_NoDup; [apply seqb_eq|assumption].
    + intros x. rewrite I4. cbn. rewrite (ainsert_keys seqb seqb_eq). intuition congruence.
    + intros H. rewrite <- app_assoc in I5. apply I5. cbn. apply declare_edges, H.
Qed.
Lemma fold_natives l : forall w ns,
  let w' := fold_left declare_native l w in
  w_senders w' = w_senders w /\ w_receivers w' = w_receivers w /\ w_topology w' = w_topology w /\
  (adj_inv ns [] (w_adj w) -> adj_inv (ns ++ l) [] (w_adj w')) /\ w_flush w' = w_flush w /\ w_sinks w' = w_sinks w /\ w_filters w' = w_filters w /\ w_sources w' = w_sources w.
Proof.
  induction l as [|[i fw] l IH]; intros w ns w'; subst w'; cbn [fold_left].
  - rewrite app_nil_r. auto 10.
  - destruct (IH (declare_native w (i, fw)) (ns ++ [(i, fw)])) as (I1 & I2 & I3 & I4 & I5 & I6 & I7 & I8). cbv zeta in *.
    split; [exact I1|]. split; [exact I2|]. split; [exact I3|]. split; [|auto].
    intros H. rewrite <- app_assoc in I4. apply I4. cbn. apply declare_edges, H.
Qed.
Lemma fold_sources l : forall w ns,
  let w' := fold_left declare_source l w in
  w_senders w' = w_senders w /\ w_receivers w' = w_receivers w /\
  (forall x, In x (map fst (w_topology w')) <-> In x (map fst l) \/ In x (map fst (w_topology w))) /\
  (adj_inv ns [] (w_adj w) -> adj_inv (ns ++ l) [] (w_adj w')) /\ w_flush w' = w_flush w /\ w_sinks w' = w_sinks w /\ w_filters w' = w_filters w /\ w_sources w' = w_sources w.
Proof.
  induction l as [|[i fw] l IH]; intros w ns w'; subst w'; cbn [fold_left].
  - rewrite app_nil_r. split; [reflexivity|]. split; [reflexivity|]. split; [intros; cbn; tauto|]. auto 10.
  - destruct (IH (declare_source w (i, fw)) (ns ++ [(i, fw)])) as (I1 & I2 & I3 & I4 & I5 & I6 & I7 & I8). cbv zeta in *.
    split; [exact I1|]. split; [exact I2|]. split; [|split; [|auto]].
    + intros x. rewrite I3. cbn. rewrite (ainsert_keys seqb seqb_eq). intuition congruence.
    + intros H. rewrite <- app_assoc in I4. apply I4. cbn. apply declare_edges, H.
Qed.
Lemma declare_spec g : declared g (declare g).
Proof.
  unfold declare. destruct (fold_sinks (g_sinks g) wiring0) as (A1 & A2 & A3 & A4 & A5 & A6 & A7 & A8 & A9).
  set (w1 := fold_left declare_sink (g_sinks g) wiring0) in *. cbv zeta in *.
  destruct (fold_filters (g_filters g) w1 []) as (B1 & B2 & B3 & B4 & B5 & B6 & B7 & B8 & B9).
  set (w2 := fold_left declare_filter (g_filters g) w1) in *. cbv zeta in *.
  destruct (fold_natives (g_natives g) w2 (g_filters g)) as (C1 & C2 & C3 & C4 & C5 & C6 & C7 & C8).
  set (w3 := fold_left declare_native (g_natives g) w2) in *. cbv zeta in *.
  destruct (fold_sources (g_sources g) w3 (g_filters g ++ g_natives g)) as (D1 & D2 & D3 & D4 & D5 & D6 & D7 & D8).
  set (w4 := fold_left declare_source (g_sources g) w3) in *. cbv zeta in *.
  assert (S : forall x y, alookup seqb x (w_senders w4) = Some y <-> receives g x /\ y = x).
  { intros x y. rewrite D1, C1, B1, A1. cbn [w_senders wiring0 alookup]. unfold receives.
    destruct (in_dec string_dec x (map fst (g_filters g))), (in_dec string_dec x (g_sinks g)); intuition discriminate. }
  constructor.
  - unfold senders_of. rewrite app_assoc. apply D4, C4, B5. rewrite A5. apply adj_inv_nil.
  - intros x. rewrite S. tauto.
  - intros x y. rewrite S. tauto.
  - rewrite D2, C2, D1, C1. apply B2, A2. reflexivity.
  - rewrite D1, C1. apply B3, A3. constructor.
  - intros x. rewrite D3, C3, B4, A4. cbn. unfold receives. tauto.
  - rewrite D5, C5, B6, A6. reflexivity.
  - rewrite D6, C6, B7, A7. reflexivity.
  - rewrite D7, C7, B8, A8. reflexivity.
  - rewrite D8, C8, B9, A9. reflexivity.
Qed.

(** ** starting *)
Lemma NoDup_app_one {A} (l : list A) x : NoDup l -> ~ In x l -> NoDup (l ++ [x]).
Proof.
  intros H Hx. induction H as [|y l Hy H IH]; cbn; [constructor; [tauto|constructor]|].
  constructor; [rewrite in_app_iff; cbn in *; intuition congruence|]. apply IH. cbn in Hx. tauto.
Qed.
Lemma set_add_spec x s (P : string -> Prop) : lists s P -> lists (set_add x s) (fun y => y = x \/ P y).
Proof.
  intros [H1 H2]. unfold set_add. destruct (existsb (seqb x) s) eqn:E.
  - apply existsb_exists in E as (y & Hy & E). apply seqb_eq in E as <-. split; [assumption|]. intros z. rewrite H2. split; [tauto|]. intros [->|Hz]; [apply H2, Hy|exact Hz].
  - assert (~ In x s) by (intros Hin; rewrite <- not_true_iff_false in E; apply E, existsb_exists; exists x; split; [assumption|apply seqb_eq; reflexivity]).
    split.
    + apply NoDup_app_one; assumption.
    + intros z. rewrite in_app_iff, H2. cbn. intuition congruence.
Qed.

Lemma lists_ext l P P' : (forall x, P x <-> P' x) -> lists l P -> lists l P'.
Proof. intros H [H1 H2]. split; [assumption|]. intros x. rewrite H2. apply H. Qed.

Lemma populate_ok top path senders : forall fw flush a, adj_wf a -> (forall x, In x fw -> alookup seqb x senders = Some x) ->
  exists flush' a', populate_forwards top fw path senders flush a = Going (flush', a') /\ adj_wf a' /\
    (forall y, In y fw -> edge a' path y = Some (Some y)) /\
    (forall x y, ~ (x = path /\ In y fw) -> edge a' x y = edge a x y) /\
    (top = true -> forall P, lists flush P -> lists flush' (fun x => In x fw \/ P x)) /\
    (fw <> [] -> alookup seqb path a' <> None) /\ (fw = [] -> a' = a).
Proof.
  induction fw as [|f fw IH]; intros flush a Hw Hs; cbn [populate_forwards].
  - exists flush, a. split; [reflexivity|]. split; [assumption|]. split; [contradiction|]. split; [reflexivity|]. split; [|split; [congruence|reflexivity]].
    intros _ P. apply lists_ext. cbn. tauto.
  - rewrite (Hs f (or_introl eq_refl)).
    destruct (IH (if top then set_add f flush else flush) (add_asymmetric_edge path f (Some f) a)) as (flush' & a' & E & Hw' & E1 & E2 & E3 & E4 & E5).
    { apply add_wf, Hw. } { intros x Hx. apply Hs. right. exact Hx. }
    exists flush', a'. split; [exact E|]. split; [exact Hw'|]. split; [|split; [|split; [|split]]].
    + intros y [<-|Hy]; [|apply E1, Hy]. destruct (in_dec string_dec f fw) as [Hin|Hin]; [apply E1, Hin|]. rewrite E2 by tauto. apply edge_add_eq.
    + intros x y Hxy. rewrite E2 by (cbn in Hxy; tauto). apply edge_add_ne. cbn in Hxy.
      destruct (string_dec x path) as [->|Hx]; [|tauto]. right. intros ->. apply Hxy. tauto.
    + intros -> P HP. eapply lists_ext; [|apply (E3 eq_refl (fun y => y = f \/ P y))]; [cbn; intros x; split; intuition congruence|]. apply set_add_spec, HP.
    + intros _. assert (Ef : edge a' path f = Some (Some f)).
      { destruct (in_dec string_dec f fw) as [Hin|Hin]; [apply E1, Hin|]. rewrite E2 by tauto. apply edge_add_eq. }
      apply edge_node in Ef as (m & -> & _). discriminate.
    + discriminate.
Qed.
Lemma populate_exit top path senders : forall fw flush a, (exists x, In x fw /\ alookup seqb x senders = None) ->
  populate_forwards top fw path senders flush a = Exit 0.
Proof.
  induction fw as [|f fw IH]; intros flush a (x & Hx & E); cbn [populate_forwards]; [contradiction|].
  destruct Hx as [->|Hx]; [rewrite E; reflexivity|]. destruct (alookup seqb f senders); [|reflexivity]. apply IH. eauto.
Qed.

Lemma ainsert_In {V} (k : string) (v : V) m k' v' : In (k', v') (ainsert seqb k v m) -> (k' = k /\ v' = v) \/ In (k', v') m.
Proof.
  induction m as [|[k1 v1] m IH]; cbn; [intros [[= <- <-]|[]]; auto|]. destruct (seqb k k1) eqn:E.
  - apply seqb_eq in E as <-. intros [[= <- <-]|H]; auto.
  - intros [[= <- <-]|H]; [auto|]. apply IH in H. tauto.
Qed.
Lemma ainsert_keeps {V} (k : string) (v : V) m c : In c m -> fst c <> k -> In c (ainsert seqb k v m).
Proof.
  induction m as [|[k1 v1] m IH]; cbn; [tauto|]. intros H Hne. destruct (seqb k k1) eqn:E.
  - apply seqb_eq in E as <-. destruct H as [<-|H]; [cbn in Hne; congruence|right; assumption].
  - destruct H as [<-|H]; [left; reflexivity|right; auto].
Qed.
Lemma forallb_false {A} (f : A -> bool) l : forallb f l = false -> exists x, In x l /\ f x = false.
Proof.
  induction l as [|x l IH]; cbn; [discriminate|]. intros H. apply andb_false_iff in H as [H|H]; [exists x; split; [left; reflexivity|assumption]|].
  destruct (IH H) as (y & Hy & E). exists y. split; [right; assumption|assumption].
Qed.
Section Starting.
Variable g : config.
Hypothesis Hdist : distinct_ids g.

Record running (sk : list string) (fl sr : list (string * list string)) (w : wiring) : Prop := mkRunning {
  r_adj : adj_inv (senders_of g) (sk ++ map fst fl ++ map fst sr) (w_adj w);
  r_senders : forall x, alookup seqb x (w_senders w) = Some x <-> receives g x;
  r_senders_only : forall x y, alookup seqb x (w_senders w) = Some y -> y = x;
  r_receivers_nd : NoDup (map fst (w_receivers w));
  r_receivers : forall x, receives g x -> ~ In x (sk ++ map fst fl) -> alookup seqb x (w_receivers w) <> None;
  r_flush : lists (w_flush w) (fun x => exists id fw, In (id, fw) sr /\ In x fw);
  r_sinks : Forall2 (fun id r => fst r = id /\ lists (snd r) (fun u => upstream g u id)) sk (w_sinks w);
  r_filters : Forall2 (fun c r => fst r = fst c /\ lists (fst (snd r)) (fun u => upstream g u (fst c) /\ ~ In u (snd c)) /\ lists (snd (snd r)) (fun v => In v (snd c))) fl (w_filters w);
  r_sources : Forall2 (fun c r => fst r = fst c /\ lists (snd r) (fun v => In v (snd c))) sr (w_sources w);
}.

Lemma senders_unique id fw fw' : In (id, fw) (senders_of g) -> In (id, fw') (senders_of g) -> fw = fw'.
Proof.
  unfold distinct_ids in Hdist. assert (H : NoDup (map fst (senders_of g))).
  { clear -Hdist. induction (g_sinks g) as [|x l IH]; [exact Hdist|]. cbn in Hdist. inversion Hdist; subst. auto. }
  intros H1 H2. apply (In_alookup seqb seqb_eq) in H1; [|assumption]. apply (In_alookup seqb seqb_eq) in H2; [|assumption]. congruence.
Qed.
Lemma sink_not_sender id fw : In id (g_sinks g) -> ~ In (id, fw) (senders_of g).
Proof.
  intros H1 H2. unfold distinct_ids in Hdist. clear -H1 H2 Hdist. induction (g_sinks g) as [|x l IH]; [contradiction|]. cbn in Hdist. inversion Hdist as [|? ? N1 N2]; subst.
  destruct H1 as [->|H1]; [|auto]. apply N1. apply in_or_app. right. apply in_map_iff. exists (id, fw). auto.
Qed.
Lemma Forall2_snoc {A B} (R : A -> B -> Prop) l l' x y : Forall2 R l l' -> R x y -> Forall2 R (l ++ [x]) (l' ++ [y]).
Proof. intros H1 H2. apply Forall2_app; [assumption|]. constructor; [assumption|constructor]. Qed.
Lemma Forall2_keys {A B} (R : A -> string * B -> Prop) (f : A -> string) l l' :
  (forall a r, R a r -> fst r = f a) -> Forall2 R l l' -> map fst l' = map f l.
Proof. intros H F. induction F; cbn; [reflexivity|]. rewrite IHF, (H _ _ H0). reflexivity. Qed.

(** popping a node *)
Lemma adj_pop ns gone gone' a a1 id :
  (forall x, In x gone' <-> x = id \/ In x gone) ->
  adj_inv ns gone a -> adj_wf a1 -> (forall x y, x <> id -> edge a1 x y = edge a x y) -> adj_inv ns gone' (aremove seqb id a1).
Proof.
  intros Hg [Hw H] Hw1 He. split; [apply pop_wf, Hw1|]. intros x y. destruct (string_dec x id) as [->|Hne].
  - rewrite edge_pop_eq by assumption. split; [tauto|]. split; [discriminate|]. intros [Hx _]. exfalso. apply Hx, Hg. tauto.
  - rewrite edge_pop_ne, He by assumption. destruct (H x y) as [H1 H2]. split; [assumption|]. rewrite H2, Hg. tauto.
Qed.
Lemma receivers_left sk (fl : list (string * list string)) id w : (forall x, receives g x -> ~ In x (sk ++ map fst fl) -> alookup seqb x (w_receivers w) <> None) ->
  forall gone', (forall x, In x gone' <-> x = id \/ In x (sk ++ map fst fl)) ->
  forall x, receives g x -> ~ In x gone' -> alookup seqb x (aremove seqb id (w_receivers w)) <> None.
Proof.
  intros H gone' Hg x Hx Hn. rewrite Hg in Hn. rewrite (alookup_aremove_ne seqb seqb_eq) by (intros ->; tauto). apply H; [assumption|tauto].
Qed.

Lemma start_sink_spec sk w id : In id (g_sinks g) -> ~ In id sk -> running sk [] [] w ->
  exists w', start_sink w id = Going w' /\ running (sk ++ [id]) [] [] w'.
Proof.
  intros Hid Hnew [R1 R2 R3 R4 R5 R6 R7 R8 R9]. cbn [map] in *. rewrite !app_nil_r in *. unfold start_sink.
  assert (Hr : alookup seqb id (w_receivers w) <> None) by (apply R5; [left; assumption|assumption]).
  destruct (alookup seqb id (w_receivers w)); [|congruence]. clear Hr.
  destruct (pop_nodes_spec id (w_adj w) (proj1 R1)) as [P1 P2]. destruct (pop_nodes id (w_adj w)) as [srcs a] eqn:Ep. cbn [fst snd] in P1, P2. subst a.
  eexists. split; [reflexivity|]. constructor; cbn [w_adj w_senders w_receivers w_flush w_sinks w_filters w_sources map]; rewrite ?app_nil_r.
  - apply (adj_pop _ sk _ (w_adj w) (w_adj w)); [|assumption|apply R1|reflexivity]. intros x. rewrite in_app_iff. cbn. intuition.
  - assumption.
  - assumption.
  - apply aremove_NoDup; assumption.
  - apply (receivers_left sk []); [cbn; rewrite app_nil_r; assumption|]. cbn [map]. rewrite app_nil_r. intros x. rewrite in_app_iff. cbn. intuition.
  - assumption.
  - rewrite (ainsert_app_new seqb seqb_eq).
    + apply Forall2_snoc; [assumption|]. cbn. split; [reflexivity|]. eapply lists_ext; [|exact P1]. intros u. destruct R1 as [_ R1]. destruct (R1 id u) as [A1 A2].
      split.
      * intros Hu. destruct A1 as [A1|A1]; [|congruence]. apply A2 in A1 as [_ [(fw & B1 & B2)|(fw & B1 & B2)]]; [exfalso; apply (sink_not_sender id fw Hid B1)|]. exists fw. auto.
      * intros (fw & B1 & B2). assert (E : edge (w_adj w) id u = Some None) by (apply A2; split; [assumption|]; right; eauto). rewrite E. discriminate.
    + rewrite (Forall2_keys _ (fun x => x) _ _ (fun a r H => proj1 H) R7), map_id. assumption.
  - assumption.
  - assumption.
Qed.

Definition fulfilled (fw : list string) : Prop := forall x, In x fw -> receives g x.
Lemma fulfilled_dec fw senders : (forall x, alookup seqb x senders = Some x <-> receives g x) -> (forall x y, alookup seqb x senders = Some y -> y = x) ->
  (fulfilled fw /\ forall x, In x fw -> alookup seqb x senders = Some x) \/ (exists x, In x fw /\ ~ receives g x /\ alookup seqb x senders = None).
Proof.
  intros H1 H2. induction fw as [|f fw IH]; [left; split; intros x []|].
  destruct (alookup seqb f senders) as [y|] eqn:E.
  - pose proof (H2 _ _ E) as ->. destruct IH as [[I1 I2]|(x & I1 & I2 & I3)].
    + left. split; intros x [<-|Hx]; auto. apply H1, E.
    + right. exists x. split; [right; assumption|]. auto.
  - right. exists f. split; [left; reflexivity|]. split; [|assumption]. rewrite <- H1, E. discriminate.
Qed.

Lemma start_filter_spec fl w id fw : In (id, fw) (g_filters g) -> ~ In id (map fst fl) -> ~ In id (g_sinks g) -> running (g_sinks g) fl [] w ->
  (exists w', start_filter w (id, fw) = Going w' /\ running (g_sinks g) (fl ++ [(id, fw)]) [] w' /\ fulfilled fw /\ (fw <> [] \/ exists u, upstream g u id)) \/
  (start_filter w (id, fw) = Exit 0 /\ ~ fulfilled fw) \/
  (start_filter w (id, fw) = Panicked /\ fw = [] /\ ~ (exists u, upstream g u id)).
Proof.
  intros Hid Hnew Hns [R1 R2 R3 R4 R5 R6 R7 R8 R9]. cbn [map] in *. rewrite !app_nil_r in *. unfold start_filter.
  assert (Hsend : In (id, fw) (senders_of g)) by (unfold senders_of; apply in_or_app; left; assumption).
  assert (Hgone : ~ In id (g_sinks g ++ map fst fl)) by (rewrite in_app_iff; tauto).
  assert (Hr : alookup seqb id (w_receivers w) <> None) by (apply R5; [right; apply in_map_iff; exists (id, fw); auto|assumption]).
  destruct (alookup seqb id (w_receivers w)); [|congruence]. clear Hr.
  destruct (fulfilled_dec fw (w_senders w) R2 R3) as [[F1 F2]|(x & F1 & F2 & F3)].
  2:{ right. left. rewrite populate_exit by eauto. split; [reflexivity|]. intros F. apply F2, F, F1. }
  destruct (populate_ok false id (w_senders w) fw [] (w_adj w) (proj1 R1) F2) as (flush' & a' & E & Hw' & E1 & E2 & _ & E4 & E5). rewrite E. cbn [bind].
  destruct R1 as [Rw R1].
  assert (K : forall u, edge a' id u = Some None <-> upstream g u id /\ ~ In u fw).
  { intros u. destruct (in_dec string_dec u fw) as [Hu|Hu]; [rewrite E1 by assumption; split; [discriminate|tauto]|]. rewrite E2 by tauto.
    destruct (R1 id u) as [_ A2]. rewrite A2. split.
    - intros [_ [(fw' & B1 & B2)|(fw' & B1 & B2)]]; [rewrite (senders_unique _ _ _ B1 Hsend) in B2; tauto|]. split; [exists fw'; auto|assumption].
    - intros [(fw' & B1 & B2) _]. split; [assumption|]. right. eauto. }
  assert (K2 : forall y o, edge a' id y = Some (Some o) -> o = y /\ In y fw).
  { intros y o Ho. destruct (in_dec string_dec y fw) as [Hy|Hy]; [rewrite E1 in Ho by assumption; split; [congruence|assumption]|].
    rewrite E2 in Ho by tauto. destruct (R1 id y) as [[A1|A1] _]; congruence. }
  destruct (filter_nodes id a') as [srcs|] eqn:Ef.
  - left. destruct (pop_metadata_spec id a' Hw' (fun y o H => proj1 (K2 y o H))) as [P1 P2]. destruct (pop_metadata id a') as [sends a2] eqn:Ep. cbn [fst snd] in P1, P2. subst a2.
    eexists. split; [reflexivity|]. split; [|split; [assumption|]].
    + pose proof (filter_nodes_spec id a' srcs Hw' Ef) as Ps.
      constructor; cbn [w_adj w_senders w_receivers w_flush w_sinks w_filters w_sources map]; rewrite ?app_nil_r.
      * apply (adj_pop _ (g_sinks g ++ map fst fl) _ (w_adj w) a'); [|split; assumption|assumption|intros x y Hx; apply E2; tauto].
        intros x. rewrite map_app, !in_app_iff. cbn. intuition.
      * assumption.
      * assumption.
      * apply aremove_NoDup; assumption.
      * apply (receivers_left (g_sinks g) fl); [assumption|]. intros x. rewrite map_app, !in_app_iff. cbn. intuition.
      * assumption.
      * assumption.
      * rewrite (ainsert_app_new seqb seqb_eq).
        -- apply Forall2_snoc; [assumption|]. cbn. split; [reflexivity|]. split.
           ++ eapply lists_ext; [|exact Ps]. intros u. apply K.
           ++ eapply lists_ext; [|exact P1]. intros u. split; [intros Hu; apply K2 in Hu as [_ Hu]; assumption|apply E1].
        -- rewrite (Forall2_keys _ fst _ _ (fun a r H => proj1 H) R8). assumption.
      * assumption.
    + destruct fw as [|f fw]; [|left; discriminate]. right. unfold filter_nodes in Ef. destruct (alookup seqb id a') as [m|] eqn:Em; [|discriminate].
      destruct (proj2 Hw' id m Em) as [_ Hm]. destruct m as [|[y o] m]; [congruence|]. assert (Ey : edge a' id y = Some o) by (unfold edge; rewrite Em; cbn; rewrite (keqb_refl seqb seqb_eq); reflexivity).
      destruct o as [o|]; [apply K2 in Ey as [_ []]|]. exists y. apply K in Ey. tauto.
  - right. right. split; [reflexivity|]. assert (Hfw : fw = []).
    { destruct fw; [reflexivity|]. exfalso. apply E4; [discriminate|]. unfold filter_nodes in Ef. destruct (alookup seqb id a'); [discriminate|reflexivity]. }
    split; [assumption|]. intros (u & Hu). subst fw. assert (Eu : edge a' id u = Some None) by (apply K; split; [assumption|intros []]).
    apply edge_node in Eu as (m & Em & _). unfold filter_nodes in Ef. rewrite Em in Ef. discriminate.
Qed.

Lemma start_source_spec sr w id fw : In (id, fw) (g_natives g ++ g_sources g) -> ~ In id (map fst sr) -> ~ In id (g_sinks g) -> ~ In id (map fst (g_filters g)) ->
  running (g_sinks g) (g_filters g) sr w ->
  (exists w', start_source w (id, fw) = Going w' /\ running (g_sinks g) (g_filters g) (sr ++ [(id, fw)]) w' /\ fulfilled fw) \/
  (start_source w (id, fw) = Exit 0 /\ ~ fulfilled fw).
Proof.
  intros Hid Hnew Hns Hnf [R1 R2 R3 R4 R5 R6 R7 R8 R9]. unfold start_source.
  assert (Hsend : In (id, fw) (senders_of g)) by (unfold senders_of; apply in_or_app; right; assumption).
  destruct (fulfilled_dec fw (w_senders w) R2 R3) as [[F1 F2]|(x & F1 & F2 & F3)].
  2:{ right. rewrite populate_exit by eauto. split; [reflexivity|]. intros F. apply F2, F, F1. }
  left. destruct (populate_ok true id (w_senders w) fw (w_flush w) (w_adj w) (proj1 R1) F2) as (flush' & a' & E & Hw' & E1 & E2 & E3 & _). rewrite E. cbn [bind].
  destruct R1 as [Rw R1].
  assert (K2 : forall y o, edge a' id y = Some (Some o) -> o = y /\ In y fw).
  { intros y o Ho. destruct (in_dec string_dec y fw) as [Hy|Hy]; [rewrite E1 in Ho by assumption; split; [congruence|assumption]|].
    rewrite E2 in Ho by tauto. destruct (R1 id y) as [[A1|A1] _]; congruence. }
  destruct (pop_metadata_spec id a' Hw' (fun y o H => proj1 (K2 y o H))) as [P1 P2]. destruct (pop_metadata id a') as [sends a2] eqn:Ep. cbn [fst snd] in P1, P2. subst a2.
  eexists. split; [reflexivity|]. split; [|assumption].
  constructor; cbn [w_adj w_senders w_receivers w_flush w_sinks w_filters w_sources].
  - apply (adj_pop _ (g_sinks g ++ map fst (g_filters g) ++ map fst sr) _ (w_adj w) a'); [|split; assumption|assumption|intros x y Hx; apply E2; tauto].
    intros x. rewrite map_app, !in_app_iff. cbn. intuition.
  - assumption.
  - assumption.
  - assumption.
  - assumption.
  - eapply lists_ext; [|apply (E3 eq_refl _ R6)]. intros x. split.
    + intros [Hx|(i & f & Hi & Hx)]; [exists id, fw|exists i, f]; rewrite in_app_iff; cbn; tauto.
    + intros (i & f & Hi & Hx). apply in_app_or in Hi as [Hi|[[= <- <-]|[]]]; [right; eauto|tauto].
  - assumption.
  - assumption.
  - rewrite (ainsert_app_new seqb seqb_eq).
    + apply Forall2_snoc; [assumption|]. cbn. split; [reflexivity|]. eapply lists_ext; [|exact P1]. intros u. split; [intros Hu; apply K2 in Hu as [_ Hu]; assumption|apply E1].
    + rewrite (Forall2_keys _ fst _ _ (fun a r H => proj1 H) R9). assumption.
Qed.

Lemma NoDup_app_r {A} (l1 l2 : list A) : NoDup (l1 ++ l2) -> NoDup l2.
Proof. induction l1 as [|x l1 IH]; cbn; [auto|]. intros H. inversion H; auto. Qed.
Lemma NoDup_app_dis {A} (l1 l2 : list A) x : NoDup (l1 ++ l2) -> In x l2 -> ~ In x l1.
Proof.
  induction l1 as [|y l1 IH]; cbn; [tauto|]. intros H Hx [->|H1]; inversion H as [|? ? N1 N2]; subst; [apply N1, in_or_app; tauto|]. apply IH; assumption.
Qed.

Lemma each_sinks : forall l sk w, g_sinks g = sk ++ l -> running sk [] [] w -> exists w', each start_sink l w = Going w' /\ running (g_sinks g) [] [] w'.
Proof.
  induction l as [|id l IH]; intros sk w Hg R; cbn [each].
  - rewrite app_nil_r in Hg. subst sk. eauto.
  - destruct (start_sink_spec sk w id) as (w' & E & R').
    + rewrite Hg. apply in_or_app. right. left. reflexivity.
    + unfold distinct_ids in Hdist. rewrite Hg, <- app_assoc in Hdist. apply (NoDup_app_dis _ _ _ Hdist). left. reflexivity.
    + assumption.
    + rewrite E. cbn [bind]. apply (IH (sk ++ [id])); [rewrite <- app_assoc; assumption|assumption].
Qed.
Lemma filters_nd : NoDup (map fst (g_filters g)) /\ (forall id, In id (map fst (g_filters g)) -> ~ In id (g_sinks g)).
Proof.
  unfold distinct_ids, senders_of in Hdist. rewrite map_app in Hdist. split.
  - apply NoDup_app_r in Hdist. clear -Hdist. induction (map fst (g_filters g)) as [|x l IH]; [constructor|]. cbn in Hdist. inversion Hdist as [|? ? N1 N2]; subst. constructor; [|auto]. intros H. apply N1, in_or_app. tauto.
  - intros id Hid. apply (NoDup_app_dis _ _ _ Hdist). apply in_or_app. tauto.
Qed.
Lemma sources_nd : NoDup (map fst (g_natives g ++ g_sources g)) /\
  (forall id, In id (map fst (g_natives g ++ g_sources g)) -> ~ In id (g_sinks g) /\ ~ In id (map fst (g_filters g))).
Proof.
  unfold distinct_ids, senders_of in Hdist. rewrite map_app in Hdist. split.
  - apply NoDup_app_r, NoDup_app_r in Hdist. assumption.
  - intros id Hid. split; [apply (NoDup_app_dis _ _ _ Hdist); apply in_or_app; tauto|]. apply NoDup_app_r in Hdist. apply (NoDup_app_dis _ _ _ Hdist Hid).
Qed.
Definition linked_ok (c : string * list string) : Prop := snd c <> [] \/ exists u, upstream g u (fst c).
Lemma each_filters : forall l fl w, g_filters g = fl ++ l -> running (g_sinks g) fl [] w ->
  (exists w', each start_filter l w = Going w' /\ running (g_sinks g) (g_filters g) [] w' /\ Forall (fun c => fulfilled (snd c) /\ linked_ok c) l) \/
  (each start_filter l w = Exit 0 /\ exists c, In c l /\ ~ fulfilled (snd c)) \/
  (each start_filter l w = Panicked /\ exists c, In c l /\ snd c = [] /\ ~ exists u, upstream g u (fst c)).
Proof.
  induction l as [|[id fw] l IH]; intros fl w Hg R; cbn [each].
  - rewrite app_nil_r in Hg. subst fl. left. eauto.
  - destruct filters_nd as [N1 N2].
    destruct (start_filter_spec fl w id fw) as [(w' & E & R' & F1 & F2)|[[E F]|(E & F1 & F2)]].
    + rewrite Hg. apply in_or_app. right. left. reflexivity.
    + rewrite Hg, map_app in N1. apply (NoDup_app_dis _ _ _ N1). left. reflexivity.
    + apply N2. rewrite Hg, map_app. apply in_or_app. right. left. reflexivity.
    + assumption.
    + rewrite E. cbn [bind]. destruct (IH (fl ++ [(id, fw)]) w') as [(w2 & I1 & I2 & I3)|[(I1 & c & I2 & I3)|(I1 & c & I2 & I3)]].
      * rewrite <- app_assoc. assumption.
      * assumption.
      * left. exists w2. split; [assumption|]. split; [assumption|]. constructor; [split; assumption|assumption].
      * right. left. split; [assumption|]. exists c. split; [right; assumption|assumption].
      * right. right. split; [assumption|]. exists c. split; [right; assumption|assumption].
    + right. left. rewrite E. cbn. split; [reflexivity|]. exists (id, fw). split; [left; reflexivity|assumption].
    + right. right. rewrite E. cbn. split; [reflexivity|]. exists (id, fw). split; [left; reflexivity|]. split; assumption.
Qed.
Lemma each_sources : forall l sr r w, g_natives g ++ g_sources g = sr ++ l ++ r -> running (g_sinks g) (g_filters g) sr w ->
  (exists w', each start_source l w = Going w' /\ running (g_sinks g) (g_filters g) (sr ++ l) w' /\ Forall (fun c => fulfilled (snd c)) l) \/
  (each start_source l w = Exit 0 /\ exists c, In c l /\ ~ fulfilled (snd c)).
Proof.
  induction l as [|[id fw] l IH]; intros sr r w Hg R; cbn [each].
  - rewrite app_nil_r. left. eauto.
  - destruct sources_nd as [N1 N2]. assert (Hin : In id (map fst (g_natives g ++ g_sources g))) by (rewrite Hg, map_app; apply in_or_app; right; left; reflexivity).
    destruct (start_source_spec sr w id fw) as [(w' & E & R' & F1)|[E F]].
    + rewrite Hg. apply in_or_app. right. left. reflexivity.
    + rewrite Hg, map_app in N1. apply (NoDup_app_dis _ _ _ N1). left. reflexivity.
    + apply N2, Hin.
    + apply N2, Hin.
    + assumption.
    + rewrite E. cbn [bind]. destruct (IH (sr ++ [(id, fw)]) r w') as [(w2 & I1 & I2 & I3)|(I1 & c & I2 & I3)].
      * rewrite <- app_assoc. assumption.
      * assumption.
      * left. exists w2. rewrite <- app_assoc in I2. split; [assumption|]. split; [assumption|]. constructor; assumption.
      * right. split; [assumption|]. exists c. split; [right; assumption|assumption].
    + right. rewrite E. cbn. split; [reflexivity|]. exists (id, fw). split; [left; reflexivity|assumption].
Qed.
Lemma flush_channels_ok senders : forall l, (forall x, In x l -> alookup seqb x senders = Some x) -> flush_channels senders l = Going l.
Proof.
  induction l as [|x l IH]; intros H; cbn; [reflexivity|]. rewrite (H x (or_introl eq_refl)), IH by (intros y Hy; apply H; right; exact Hy). reflexivity.
Qed.

Lemma topology_entries (w : wiring) : declared g w -> w = declare g ->
  forall k fw, In (k, fw) (w_topology w) -> fw = [] \/ In (k, fw) (g_filters g ++ g_sources g).
Proof.
  intros _ ->. unfold declare.
  assert (A1 : forall l w, (forall k fw, In (k, fw) (w_topology w) -> fw = []) -> forall k fw, In (k, fw) (w_topology (fold_left declare_sink l w)) -> fw = []).
  { induction l as [|i l IH]; intros w0 H; cbn [fold_left]; [exact H|]. apply IH. cbn. intros k fw Hin. destruct (ainsert_In i [] (w_topology w0) k fw Hin) as [[_ ->]|Hin']; [reflexivity|eauto]. }
  assert (A2 : forall l w (P : string * list string -> Prop), (forall k fw, In (k, fw) (w_topology w) -> P (k, fw)) -> (forall c, In c l -> P c) -> forall k fw, In (k, fw) (w_topology (fold_left declare_filter l w)) -> P (k, fw)).
  { induction l as [|[i f] l IH]; intros w0 P H Hl; cbn [fold_left]; [exact H|]. apply IH; [|intros c Hc; apply Hl; right; exact Hc]. cbn. intros k fw Hin. destruct (ainsert_In i f (w_topology w0) k fw Hin) as [[-> ->]|Hin']; [apply Hl; left; reflexivity|auto]. }
  assert (A3 : forall l w (P : string * list string -> Prop), (forall k fw, In (k, fw) (w_topology w) -> P (k, fw)) -> (forall c, In c l -> P c) -> forall k fw, In (k, fw) (w_topology (fold_left declare_source l w)) -> P (k, fw)).
  { induction l as [|[i f] l IH]; intros w0 P H Hl; cbn [fold_left]; [exact H|]. apply IH; [|intros c Hc; apply Hl; right; exact Hc]. cbn. intros k fw Hin. destruct (ainsert_In i f (w_topology w0) k fw Hin) as [[-> ->]|Hin']; [apply Hl; left; reflexivity|auto]. }
  intros k fw. apply (A3 _ _ (fun c => snd c = [] \/ In c (g_filters g ++ g_sources g))); [|intros c Hc; right; apply in_or_app; tauto].
  intros k' fw'. rewrite (proj1 (proj2 (proj2 (fold_natives (g_natives g) _ [])))).
  apply (A2 _ _ (fun c => snd c = [] \/ In c (g_filters g ++ g_sources g))); [|intros c Hc; right; apply in_or_app; tauto].
  intros k2 fw2 Hin. left. revert Hin. apply A1. intros ? ? [].
Qed.

Lemma declared_entries k fw : In (k, fw) (g_filters g ++ g_sources g) -> In (k, fw) (w_topology (declare g)).
Proof.
  assert (A2 : forall l w, NoDup (map fst l) -> forall c, In c l \/ (In c (w_topology w) /\ ~ In (fst c) (map fst l)) -> In c (w_topology (fold_left declare_filter l w))).
  { induction l as [|[i f] l IH]; intros w0 Hn c [Hc|Hc]; cbn [fold_left].
    - contradiction.
    - apply Hc.
    - inversion Hn as [|? ? N1 N2]; subst. apply IH; [assumption|]. destruct Hc as [<-|Hc]; [|left; assumption]. right. cbn. split; [|assumption].
      apply (alookup_In seqb seqb_eq). apply alookup_ainsert_eq, seqb_eq.
    - inversion Hn as [|? ? N1 N2]; subst. apply IH; [assumption|]. right. destruct Hc as [Hc1 Hc2]. cbn in *. split; [|tauto]. apply ainsert_keeps; [assumption|]. intros E. apply Hc2. auto. }
  assert (A3 : forall l w, NoDup (map fst l) -> forall c, In c l \/ (In c (w_topology w) /\ ~ In (fst c) (map fst l)) -> In c (w_topology (fold_left declare_source l w))).
  { induction l as [|[i f] l IH]; intros w0 Hn c [Hc|Hc]; cbn [fold_left].
    - contradiction.
    - apply Hc.
    - inversion Hn as [|? ? N1 N2]; subst. apply IH; [assumption|]. destruct Hc as [<-|Hc]; [|left; assumption]. right. cbn. split; [|assumption].
      apply (alookup_In seqb seqb_eq). apply alookup_ainsert_eq, seqb_eq.
    - inversion Hn as [|? ? N1 N2]; subst. apply IH; [assumption|]. right. destruct Hc as [Hc1 Hc2]. cbn in *. split; [|tauto]. apply ainsert_keeps; [assumption|]. intros E. apply Hc2. auto. }
  destruct filters_nd as [N1 N2]. destruct sources_nd as [N3 N4]. rewrite map_app in N3.
  intros H. unfold declare. apply A3; [apply NoDup_app_r in N3; assumption|]. apply in_app_or in H as [H|H]; [right|left; assumption]. split.
  - rewrite (proj1 (proj2 (proj2 (fold_natives (g_natives g) _ [])))). apply A2; [assumption|left; assumption].
  - intros Hin. apply (proj2 (N4 k ltac:(rewrite map_app; apply in_or_app; right; exact Hin))). apply in_map_iff. exists (k, fw). auto.
Qed.
Definition entry (x : string) : Prop := receives g x \/ In x (map fst (g_sources g)).
Lemma wire_spec :
  (exists t w, wire g = Going t /\ t = mkStarted (w_sinks w) (w_filters w) (w_sources w) (w_flush w) /\
     running (g_sinks g) (g_filters g) (g_natives g ++ g_sources g) w /\ Forall (fun c => fulfilled (snd c)) (senders_of g) /\ Forall linked_ok (g_filters g)) \/
  (wire g = Exit 1 /\ exists c x, In c (g_filters g ++ g_sources g) /\ In x (snd c) /\ ~ entry x) \/
  (wire g = Exit 0 /\ (exists c, In c (senders_of g) /\ ~ fulfilled (snd c)) /\ forall c x, In c (g_filters g ++ g_sources g) -> In x (snd c) -> entry x) \/
  (wire g = Panicked /\ (exists c, In c (g_filters g) /\ snd c = [] /\ ~ exists u, upstream g u (fst c)) /\ forall c x, In c (g_filters g ++ g_sources g) -> In x (snd c) -> entry x).
Proof.
  pose proof (declare_spec g) as D. assert (Hent : forall x, amem seqb x (w_topology (declare g)) = true <-> entry x).
  { intros x. unfold amem, entry. rewrite <- (d_topology _ _ D). destruct (alookup seqb x (w_topology (declare g))) as [v|] eqn:E.
    - apply (alookup_In seqb seqb_eq) in E. split; [intros _; apply in_map_iff; exists (x, v); auto|reflexivity].
    - apply (alookup_None seqb seqb_eq) in E. split; [discriminate|tauto]. }
  unfold wire, validate. destruct (forallb _ _) eqn:Ev; cbn [bind].
  2:{ right. left. split; [reflexivity|]. apply forallb_false in Ev as ([k fw] & H1 & H2). cbn [snd] in H2. apply forallb_false in H2 as H3.
      destruct H3 as (x & H3 & H4). destruct (topology_entries _ D eq_refl k fw H1) as [->|Hin]; [contradiction|].
      exists (k, fw), x. split; [assumption|]. split; [assumption|]. rewrite <- Hent, H4. discriminate. }
  assert (Hval : forall c x, In c (w_topology (declare g)) -> In x (snd c) -> entry x).
  { intros c x Hc Hx. rewrite forallb_forall in Ev. specialize (Ev c Hc). rewrite forallb_forall in Ev. apply Hent, Ev, Hx. }
  destruct (each_sinks (g_sinks g) [] (declare g) eq_refl) as (w1 & E1 & R1).
  { destruct D. constructor; cbn [map app].
    - assumption.
    - assumption.
    - assumption.
    - rewrite d_receivers0. assumption.
    - intros x Hx _. rewrite d_receivers0. apply d_senders0 in Hx. rewrite Hx. discriminate.
    - rewrite d_flush0. split; [constructor|]. intros x. split; [intros []|intros (? & ? & [] & _)].
    - rewrite d_sinks0. constructor.
    - rewrite d_filters0. constructor.
    - rewrite d_sources0. constructor. }
  rewrite E1. cbn [bind].
  assert (Hval' : forall c x, In c (g_filters g ++ g_sources g) -> In x (snd c) -> entry x).
  { intros [k fw] x Hc Hx. apply (Hval (k, fw) x); [|assumption]. apply declared_entries; assumption. }
  destruct (each_filters (g_filters g) [] w1 eq_refl R1) as [(w2 & E2 & R2 & F2)|[(E2 & c & F1 & F2)|(E2 & c & F1 & F2)]]; rewrite E2; cbn [bind].
  2:{ right. right. left. split; [reflexivity|]. split; [|assumption]. exists c. split; [apply in_or_app; tauto|assumption]. }
  2:{ right. right. right. eauto 6. }
  destruct (each_sources (g_natives g) [] (g_sources g) w2 eq_refl R2) as [(w3 & E3 & R3 & F3)|(E3 & c & F1 & F3)]; rewrite E3; cbn [bind].
  2:{ right. right. left. split; [reflexivity|]. split; [|assumption]. exists c. split; [apply in_or_app; right; apply in_or_app; tauto|assumption]. }
  destruct (each_sources (g_sources g) (g_natives g) [] w3) as [(w4 & E4 & R4 & F4)|(E4 & c & F1 & F4)].
  { rewrite app_nil_r. reflexivity. } { assumption. }
  2:{ right. right. left. rewrite E4. cbn [bind]. split; [reflexivity|]. split; [|assumption]. exists c. split; [apply in_or_app; right; apply in_or_app; tauto|assumption]. }
  rewrite E4. cbn [bind]. left.
  assert (Hall : Forall (fun c => fulfilled (snd c)) (senders_of g)).
  { unfold senders_of. apply Forall_app. split; [apply Forall_forall; intros c Hc; rewrite Forall_forall in F2; apply F2, Hc|]. apply Forall_app. split; assumption. }
  rewrite flush_channels_ok.
  - eexists _, w4. split; [reflexivity|]. split; [reflexivity|]. split; [assumption|]. split; [assumption|].
    apply Forall_forall. intros c Hc. rewrite Forall_forall in F2. apply F2, Hc.
  - intros x Hx. destruct R4. apply r_senders0. apply r_flush0 in Hx as (id & fw & H1 & H2).
    rewrite Forall_forall in Hall. apply (Hall (id, fw)); [apply in_or_app; right; assumption|assumption].
Qed.
End Starting.
Lemma Forall2_weaken {A B} (R R' : A -> B -> Prop) l l' : (forall a b, R a b -> R' a b) -> Forall2 R l l' -> Forall2 R' l l'.
Proof. intros H F. induction F; constructor; auto. Qed.
