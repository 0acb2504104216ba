(** * Facts about the common ground. *)
From Verif Require Import Base.

(** ** Association lists *)
Section AListFacts.
  Context {K V : Type} (keqb : K -> K -> bool).
  Hypothesis keqb_eq : forall a b, keqb a b = true <-> a = b.

  Lemma keqb_refl a : keqb a a = true.
  Proof. apply keqb_eq; reflexivity. Qed.
  Lemma keqb_neq a b : a <> b -> keqb a b = false.
  Proof.
    intros H. destruct (keqb a b) eqn:E; [|reflexivity].
    apply keqb_eq in E; contradiction.
  Qed.

  Lemma alookup_ainsert_eq k (v : V) m : alookup keqb k (ainsert keqb k v m) = Some v.
  Proof.
    induction m as [|[k' v'] m IH]; cbn.
    - rewrite keqb_refl; reflexivity.
    - destruct (keqb k k') eqn:E; cbn; rewrite E; auto.
  Qed.

  Lemma alookup_ainsert_ne k k' (v : V) m :
    k <> k' -> alookup keqb k' (ainsert keqb k v m) = alookup keqb k' m.
  Proof.
    intros Hne. induction m as [|[k1 v1] m IH]; cbn.
    - rewrite keqb_neq by congruence. reflexivity.
    - destruct (keqb k k1) eqn:E; cbn.
      + apply keqb_eq in E; subst k1. rewrite !keqb_neq by congruence. reflexivity.
      + destruct (keqb k' k1); auto.
  Qed.

  Lemma alookup_In k (v : V) m : alookup keqb k m = Some v -> In (k, v) m.
  Proof.
    induction m as [|[k' v'] m IH]; cbn; [discriminate|].
    destruct (keqb k k') eqn:E.
    - apply keqb_eq in E. intros [= <-]; subst; auto.
    - intros H; right; auto.
  Qed.

  Lemma alookup_None k (m : list (K * V)) : alookup keqb k m = None <-> ~ In k (map fst m).
  Proof.
    induction m as [|[k' v'] m IH]; cbn; [tauto|].
    destruct (keqb k k') eqn:E.
    - apply keqb_eq in E. split; [discriminate|intros H; exfalso; apply H; auto].
    - rewrite IH. split; intros H.
      + intros [->|H1]; [rewrite keqb_refl in E; discriminate|auto].
      + intros H1; apply H; auto.
  Qed.

  Lemma In_alookup k (v : V) m : NoDup (map fst m) -> In (k, v) m -> alookup keqb k m = Some v.
  Proof.
    induction m as [|[k' v'] m IH]; cbn; [tauto|]. intros Hn HI.
    inversion Hn as [|? ? Hn1 Hn2]; subst.
    destruct HI as [E|HI].
    - inversion E; subst. rewrite keqb_refl; reflexivity.
    - rewrite keqb_neq; auto. intros ->. apply Hn1. apply in_map_iff. exists (k', v); auto.
  Qed.

  Lemma ainsert_keys k (v : V) m x :
    In x (map fst (ainsert keqb k v m)) <-> x = k \/ In x (map fst m).
  Proof.
    induction m as [|[k' v'] m IH]; cbn; [intuition|].
    destruct (keqb k k') eqn:E; cbn.
    - apply keqb_eq in E; subst; intuition.
    - rewrite IH; intuition.
  Qed.

  Lemma ainsert_NoDup k (v : V) m : NoDup (map fst m) -> NoDup (map fst (ainsert keqb k v m)).
  Proof.
    induction m as [|[k' v'] m IH]; cbn; intros Hn.
    - constructor; [tauto|constructor].
    - inversion Hn as [|? ? Hn1 Hn2]; subst.
      destruct (keqb k k') eqn:E; cbn; [assumption|].
      constructor; [|auto]. rewrite ainsert_keys. intros [->|H]; [|auto].
      rewrite keqb_refl in E; discriminate.
  Qed.

  Lemma ainsert_length_new k (v : V) m :
    ~ In k (map fst m) -> List.length (ainsert keqb k v m) = S (List.length m).
  Proof.
    induction m as [|[k' v'] m IH]; cbn; intros Hn; [reflexivity|].
    rewrite keqb_neq by (intros ->; apply Hn; auto). cbn. rewrite IH; tauto.
  Qed.

  Lemma ainsert_keys_old k (v : V) m :
    In k (map fst m) -> map fst (ainsert keqb k v m) = map fst m.
  Proof.
    induction m as [|[k' v'] m IH]; cbn; intros Hn; [tauto|].
    destruct (keqb k k') eqn:E; cbn; [reflexivity|].
    rewrite IH; [reflexivity|]. destruct Hn as [->|Hn]; [|assumption].
    rewrite keqb_refl in E; discriminate.
  Qed.

  Lemma ainsert_app_new k (v : V) m :
    ~ In k (map fst m) -> ainsert keqb k v m = m ++ [(k, v)].
  Proof.
    induction m as [|[k' v'] m IH]; cbn; intros Hn; [reflexivity|].
    rewrite keqb_neq by (intros ->; apply Hn; auto). rewrite IH by tauto. reflexivity.
  Qed.

  Lemma aremove_keys_incl k (m : list (K * V)) x :
    In x (map fst (aremove keqb k m)) -> In x (map fst m).
  Proof.
    induction m as [|[k' v'] m IH]; cbn; [auto|].
    destruct (keqb k k'); cbn; intuition.
  Qed.

  Lemma aremove_NoDup k (m : list (K * V)) :
    NoDup (map fst m) -> NoDup (map fst (aremove keqb k m)).
  Proof.
    induction m as [|[k' v'] m IH]; cbn; intros Hn; [constructor|].
    inversion Hn as [|? ? Hn1 Hn2]; subst.
    destruct (keqb k k'); cbn; [assumption|]. constructor; auto.
    intros H; apply Hn1; eapply aremove_keys_incl; eauto.
  Qed.

  Lemma alookup_aremove_eq k (m : list (K * V)) :
    NoDup (map fst m) -> alookup keqb k (aremove keqb k m) = None.
  Proof.
    induction m as [|[k' v'] m IH]; cbn; intros Hn; [reflexivity|].
    inversion Hn as [|? ? Hn1 Hn2]; subst.
    destruct (keqb k k') eqn:E; cbn.
    - apply keqb_eq in E; subst. apply alookup_None; assumption.
    - rewrite E; auto.
  Qed.

  Lemma alookup_aremove_ne k k' (m : list (K * V)) :
    k <> k' -> alookup keqb k' (aremove keqb k m) = alookup keqb k' m.
  Proof.
    intros Hne. induction m as [|[k1 v1] m IH]; cbn; [reflexivity|].
    destruct (keqb k k1) eqn:E; cbn.
    - apply keqb_eq in E; subst. rewrite keqb_neq by congruence. reflexivity.
    - destruct (keqb k' k1); auto.
  Qed.
End AListFacts.

Lemma seqb_eq a b : seqb a b = true <-> a = b.
Proof. apply String.eqb_eq. Qed.
Lemma Neqb_eq a b : N.eqb a b = true <-> a = b.
Proof. apply N.eqb_eq. Qed.

(** ** String comparison is a total order *)
Lemma scmp_refl s : scmp s s = Eq.
Proof.
  unfold scmp. induction s as [|x s IH]; cbn; [reflexivity|].
  unfold Ascii.compare. rewrite N.compare_refl. assumption.
Qed.
Lemma scmp_eq a b : scmp a b = Eq <-> a = b.
Proof. split; [apply String.compare_eq_iff|intros ->; apply scmp_refl]. Qed.
Lemma scmp_antisym a b : scmp b a = CompOpp (scmp a b).
Proof. apply String.compare_antisym. Qed.
Lemma ascii_cmp_lt_trans a b c :
  Ascii.compare a b = Lt -> Ascii.compare b c = Lt -> Ascii.compare a c = Lt.
Proof. unfold Ascii.compare. rewrite !N.compare_lt_iff. lia. Qed.
Lemma ascii_cmp_eq a b : Ascii.compare a b = Eq <-> a = b.
Proof.
  unfold Ascii.compare. rewrite N.compare_eq_iff. split; [|congruence].
  intros H. rewrite <- (ascii_N_embedding a), <- (ascii_N_embedding b), H. reflexivity.
Qed.
Lemma scmp_lt_trans a : forall b c, scmp a b = Lt -> scmp b c = Lt -> scmp a c = Lt.
Proof.
  unfold scmp. induction a as [|x a IH]; intros [|y b] [|z c]; cbn; try discriminate; auto.
  destruct (Ascii.compare x y) eqn:E1; try discriminate.
  - apply ascii_cmp_eq in E1; subst y.
    destruct (Ascii.compare x z) eqn:E2; try discriminate; auto. intros; eapply IH; eauto.
  - intros _. destruct (Ascii.compare y z) eqn:E2; try discriminate.
    + apply ascii_cmp_eq in E2; subst z. rewrite E1; reflexivity.
    + intros _. rewrite (ascii_cmp_lt_trans _ _ _ E1 E2). reflexivity.
Qed.

(** ** Binary search meets its contract on partitioned input *)
Section BSearchFacts.
  Context {A : Type} (f : A -> comparison).

  (** [l] is ordered with respect to the target: first the smaller elements,
      then the equal ones, then the greater ones. *)
  Definition partitioned (l : list A) (a b : nat) : Prop :=
    a <= b <= List.length l /\
    forall i x, nth_error l i = Some x ->
      (i < a -> f x = Lt) /\ (a <= i < b -> f x = Eq) /\ (b <= i -> f x = Gt).

  Lemma bs_loop_spec l a b : partitioned l a b ->
    forall fuel base size,
      size <= fuel -> 1 <= size -> base + size <= List.length l ->
      (base = 0 \/ base < b) -> b <= base + size ->
      let r := bs_loop f l fuel base size in
      r < List.length l /\ (r = 0 \/ r < b) /\ b <= r + 1.
  Proof.
    intros [Hab Hp]. induction fuel as [|fuel IH]; intros base size Hf H1 Hl Hb Hs; [lia|].
    cbn [bs_loop]. destruct (Nat.leb_spec size 1) as [Hle|Hgt].
    - cbn. split; [lia|]. split; [destruct Hb; auto|lia].
    - assert (Hh : 1 <= size / 2 /\ size / 2 < size).
      { split; [apply Nat.div_le_lower_bound; lia|apply Nat.div_lt; lia]. }
      destruct (nth_error l (base + size / 2)) as [x|] eqn:Ex.
      2:{ apply nth_error_None in Ex; lia. }
      destruct (Hp _ _ Ex) as (HL & HE & HG).
      destruct (Nat.lt_ge_cases (base + size / 2) b) as [Hlt|Hge].
      + assert (Hf' : f x <> Gt).
        { destruct (Nat.lt_ge_cases (base + size / 2) a); [rewrite HL by lia|rewrite HE by lia];
          discriminate. }
        destruct (f x); try congruence; apply IH; lia.
      + rewrite HG by lia. apply IH; try lia.
  Qed.

  Lemma bsearch_spec l a b : partitioned l a b ->
    match bsearch f l with
    | Found i => a <= i < b
    | Missing i => i = a /\ a = b
    end.
  Proof.
    intros Hp. pose proof Hp as [Hab Hn]. unfold bsearch. destruct l as [|y l'].
    - cbn in Hab. lia.
    - set (l := y :: l') in *. change (match l with [] => Missing 0 | _ :: _ => _ end)
        with (match nth_error l (bs_loop f l (List.length l) 0 (List.length l)) with
              | Some x => match f x with Eq => Found (bs_loop f l (List.length l) 0 (List.length l))
                          | Lt => Missing (bs_loop f l (List.length l) 0 (List.length l) + 1)
                          | Gt => Missing (bs_loop f l (List.length l) 0 (List.length l)) end
              | None => Missing (bs_loop f l (List.length l) 0 (List.length l)) end).
      assert (Hlen : 1 <= List.length l) by (cbn; lia).
      pose proof (bs_loop_spec l a b Hp (List.length l) 0 (List.length l)) as H.
      cbn zeta in H. specialize (H ltac:(lia) Hlen ltac:(lia) ltac:(auto) ltac:(lia)).
      set (r := bs_loop f l (List.length l) 0 (List.length l)) in *.
      destruct H as (Hr & Hr0 & Hb).
      destruct (nth_error l r) as [x|] eqn:Ex.
      2:{ apply nth_error_None in Ex; lia. }
      destruct (Hn _ _ Ex) as (HL & HE & HG).
      destruct (f x) eqn:Ef.
      + destruct (Nat.lt_ge_cases r a) as [Hra|Hra].
        { specialize (HL Hra); congruence. }
        destruct (Nat.lt_ge_cases r b) as [Hrb|Hrb]; [lia|].
        specialize (HG Hrb); congruence.
      + destruct (Nat.lt_ge_cases r a) as [Hra|Hra]; [lia|].
        destruct (Nat.lt_ge_cases r b) as [Hrb|Hrb].
        { specialize (HE ltac:(lia)); congruence. }
        specialize (HG Hrb); congruence.
      + destruct (Nat.lt_ge_cases r a) as [Hra|Hra].
        { specialize (HL Hra); congruence. }
        destruct (Nat.lt_ge_cases r b) as [Hrb|Hrb].
        { specialize (HE ltac:(lia)); congruence. }
        lia.
  Qed.

  (** Splitting form: the list is (smaller) ++ (equal) ++ (greater). *)
  Lemma partitioned_split l1 l2 l3 :
    Forall (fun x => f x = Lt) l1 -> Forall (fun x => f x = Eq) l2 ->
    Forall (fun x => f x = Gt) l3 ->
    partitioned (l1 ++ l2 ++ l3) (List.length l1) (List.length l1 + List.length l2).
  Proof.
    intros H1 H2 H3. rewrite Forall_forall in *. split.
    - rewrite !app_length; lia.
    - intros i x Hx. repeat split; intros Hi.
      + rewrite nth_error_app1 in Hx by lia. apply H1. eapply nth_error_In; eauto.
      + rewrite nth_error_app2, nth_error_app1 in Hx by lia.
        apply H2. eapply nth_error_In; eauto.
      + rewrite !nth_error_app2 in Hx by lia.
        apply H3. eapply nth_error_In; eauto.
  Qed.

  Lemma bsearch_none l1 l3 :
    Forall (fun x => f x = Lt) l1 -> Forall (fun x => f x = Gt) l3 ->
    bsearch f (l1 ++ l3) = Missing (List.length l1).
  Proof.
    intros H1 H3. pose proof (bsearch_spec _ _ _ (partitioned_split l1 [] l3 H1 (Forall_nil _) H3)) as H.
    cbn [app] in H. destruct (bsearch f (l1 ++ l3)); cbn in H; [lia|]. f_equal; lia.
  Qed.

  Lemma bsearch_one l1 y l3 :
    Forall (fun x => f x = Lt) l1 -> f y = Eq -> Forall (fun x => f x = Gt) l3 ->
    bsearch f (l1 ++ y :: l3) = Found (List.length l1).
  Proof.
    intros H1 H2 H3.
    pose proof (bsearch_spec _ _ _ (partitioned_split l1 [y] l3 H1
      (Forall_cons _ H2 (Forall_nil _)) H3)) as H.
    cbn [app] in H. destruct (bsearch f (l1 ++ y :: l3)); cbn in H; [f_equal; lia|lia].
  Qed.
End BSearchFacts.

(** ** Positional operations *)
Lemma insert_at_app {A} (l1 l2 : list A) x :
  insert_at (List.length l1) x (l1 ++ l2) = l1 ++ x :: l2.
Proof. induction l1; cbn; [destruct l2; reflexivity|f_equal; assumption]. Qed.
Lemma update_at_app {A} (l1 l2 : list A) x g :
  update_at (List.length l1) g (l1 ++ x :: l2) = l1 ++ g x :: l2.
Proof. induction l1; cbn; [reflexivity|f_equal; assumption]. Qed.
Lemma remove_at_app {A} (l1 l2 : list A) x :
  remove_at (List.length l1) (l1 ++ x :: l2) = l1 ++ l2.
Proof. induction l1; cbn; [reflexivity|f_equal; assumption]. Qed.

Lemma insert_at_length {A} i (x : A) l : List.length (insert_at i x l) = S (List.length l).
Proof.
  revert l; induction i as [|i IH]; intros [|y l]; cbn; auto.
Qed.
Lemma update_at_length {A} i (g : A -> A) l : List.length (update_at i g l) = List.length l.
Proof. revert i; induction l as [|y l IH]; intros [|i]; cbn; auto. Qed.
Lemma insert_at_split {A} i (x : A) l : insert_at i x l = firstn i l ++ x :: skipn i l.
Proof.
  revert l; induction i as [|i IH]; intros [|y l]; cbn; try reflexivity.
  rewrite IH; reflexivity.
Qed.

Lemma sumN_app l1 l2 : sumN (l1 ++ l2) = (sumN l1 + sumN l2)%N.
Proof. unfold sumN; induction l1; cbn [fold_right app]; lia. Qed.

(** A strictly sorted list (by a transitive decidable order) splits around any target. *)
Lemma sorted_app_inv {A} (R : A -> A -> Prop) l1 l2 :
  StronglySorted R (l1 ++ l2) ->
  StronglySorted R l1 /\ StronglySorted R l2 /\ (forall x y, In x l1 -> In y l2 -> R x y).
Proof.
  induction l1 as [|a l1 IH]; cbn; intros H.
  - repeat split; [constructor|assumption|tauto].
  - inversion H as [|? ? Hs Hf]; subst. destruct (IH Hs) as (H1 & H2 & H3).
    rewrite Forall_forall in Hf. repeat split; auto.
    + constructor; auto. apply Forall_forall; intros; apply Hf, in_or_app; auto.
    + intros x y [->|Hx] Hy; [apply Hf, in_or_app; auto|auto].
Qed.
Lemma sorted_app {A} (R : A -> A -> Prop) l1 l2 :
  StronglySorted R l1 -> StronglySorted R l2 -> (forall x y, In x l1 -> In y l2 -> R x y) ->
  StronglySorted R (l1 ++ l2).
Proof.
  induction l1 as [|a l1 IH]; cbn; intros H1 H2 H3; [assumption|].
  inversion H1 as [|? ? Hs Hf]; subst. constructor.
  - apply IH; auto.
  - apply Forall_app; split; [assumption|]. apply Forall_forall; intros; apply H3; auto.
Qed.

(** bounds of the binary search on any list, sorted or not *)
Lemma bs_loop_bound {A} (f : A -> comparison) (l : list A) : forall fuel base size,
  base + size <= List.length l -> 0 < size -> bs_loop f l fuel base size < List.length l.
Proof.
  induction fuel as [|n IH]; intros base size H1 H2; cbn [bs_loop]; [lia|].
  destruct (Nat.leb_spec size 1); [lia|].
  assert (size / 2 < size) by (apply Nat.div_lt; lia).
  assert (0 < size / 2) by (apply Nat.div_str_pos; lia).
  set (h := size / 2) in *.
  destruct (nth_error l (base + h)) as [x|]; [destruct (f x)|]; apply IH; lia.
Qed.
Lemma bsearch_bound {A} (f : A -> comparison) (l : list A) :
  match bsearch f l with Found i => i < List.length l | Missing i => i <= List.length l end.
Proof.
  unfold bsearch. destruct l as [|x l]; [cbn; lia|].
  assert (H : bs_loop f (x :: l) (List.length (x :: l)) 0 (List.length (x :: l)) < List.length (x :: l))
    by (apply bs_loop_bound; cbn; lia).
  destruct (nth_error (x :: l) _) as [y|]; [destruct (f y)|]; lia.
Qed.
