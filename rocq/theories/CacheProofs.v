(** * Proofs about the text caches. *)
From Verif Require Import Base BaseFacts CacheModel.
From Coq Require Import Sorted.
Open Scope list_scope. Open Scope nat_scope.

(** [pcmp] orders the comparable values: those comparable with themselves *)
Record porder {T} (pcmp : T -> T -> option comparison) : Prop := mkPorder {
  po_total : forall a b, pcmp a a = Some Eq -> pcmp b b = Some Eq -> pcmp a b <> None;
  po_anti : forall a b, pcmp b a = option_map CompOpp (pcmp a b);
  po_trans : forall a b c, pcmp a b = Some Lt -> pcmp b c = Some Lt -> pcmp a c = Some Lt;
  po_eq : forall a b c, pcmp a b = Some Eq -> pcmp a c = pcmp b c;
}.

Section Proofs.
Context {T : Type}.
Variable pcmp : T -> T -> option comparison.
Variable show : T -> string.
Hypothesis P : porder pcmp.

Definition fine (v : T) : Prop := pcmp v v = Some Eq.
Definition same (v w : T) : bool := match pcmp w v with Some Eq => true | _ => false end.
Definition cmpv (v : T) (x : T * string) : comparison := match pcmp (fst x) v with Some c => c | None => Eq end.

Lemma pbs_loop_eq v l : fine v -> Forall (fun x => fine (fst x)) l -> forall fuel base size,
  pbs_loop pcmp v l fuel base size = Some (bs_loop (cmpv v) l fuel base size).
Proof.
  intros Hv Hl. induction fuel as [|fuel IH]; intros base size; [reflexivity|]. cbn [pbs_loop bs_loop].
  destruct (size <=? 1); [reflexivity|]. destruct (nth_error l (base + size / 2)) as [x|] eqn:E; [|apply IH].
  rewrite Forall_forall in Hl. specialize (Hl x (nth_error_In _ _ E)). unfold cmpv at 2.
  pose proof (po_total _ P (fst x) v Hl Hv). destruct (pcmp (fst x) v) as [[]|]; [apply IH|apply IH|apply IH|contradiction].
Qed.
Lemma pbsearch_eq v l : fine v -> Forall (fun x => fine (fst x)) l -> pbsearch pcmp v l = Some (bsearch (cmpv v) l).
Proof.
  intros Hv Hl. unfold pbsearch, bsearch. destruct l as [|y l']; [reflexivity|]. set (l := y :: l') in *.
  rewrite pbs_loop_eq by assumption. destruct (nth_error l _) as [x|] eqn:E; [|reflexivity].
  rewrite Forall_forall in Hl. specialize (Hl x (nth_error_In _ _ E)). unfold cmpv.
  pose proof (po_total _ P (fst x) v Hl Hv). fold (cmpv v). destruct (pcmp (fst x) v) as [[]|]; auto; contradiction.
Qed.

(** a strictly sorted cache splits around a value *)
Definition clt (a b : T * string) : Prop := pcmp (fst a) (fst b) = Some Lt.
Lemma gt_lt a b : pcmp a b = Some Gt <-> pcmp b a = Some Lt.
Proof. rewrite (po_anti _ P a b). destruct (pcmp a b) as [[]|]; cbn; split; congruence. Qed.
Lemma eq_sym a b : pcmp a b = Some Eq -> pcmp b a = Some Eq.
Proof. intros H. rewrite (po_anti _ P a b), H. reflexivity. Qed.
Lemma lt_eq a b c : pcmp a b = Some Lt -> pcmp b c = Some Eq -> pcmp a c = Some Lt.
Proof.
  intros H1 H2. apply gt_lt. rewrite <- (po_eq _ P b c a H2). apply gt_lt. assumption.
Qed.
Lemma split_at v c : fine v -> Forall (fun x => fine (fst x)) c -> StronglySorted clt c ->
  (exists l1 y l3, c = l1 ++ y :: l3 /\ Forall (fun x => cmpv v x = Lt) l1 /\ pcmp (fst y) v = Some Eq /\ Forall (fun x => cmpv v x = Gt) l3) \/
  (exists l1 l3, c = l1 ++ l3 /\ Forall (fun x => pcmp (fst x) v = Some Lt) l1 /\ Forall (fun x => pcmp (fst x) v = Some Gt) l3).
Proof.
  intros Hv Hf Hs. induction Hs as [|x c Hs IH Hx]; [right; exists [], []; auto|].
  inversion Hf as [|? ? Hfx Hf']; subst. specialize (IH Hf').
  assert (Hgt : (exists c0, pcmp (fst x) v = Some c0 /\ c0 <> Lt) -> Forall (fun y => pcmp (fst y) v = Some Gt) c).
  { intros (c0 & E & Hn). rewrite Forall_forall in *. intros y Hy. specialize (Hx y Hy). unfold clt in Hx. apply gt_lt.
    destruct c0; [|congruence|].
    - rewrite <- (po_eq _ P _ _ (fst y) E). assumption.
    - apply gt_lt in E. eapply (po_trans _ P); eassumption. }
  pose proof (po_total _ P (fst x) v Hfx Hv) as Ht. destruct (pcmp (fst x) v) as [[]|] eqn:E; [| | |contradiction].
  - left. exists [], x, c. cbn. split; [reflexivity|]. split; [constructor|]. split; [assumption|].
    eapply Forall_impl; [|apply Hgt; exists Eq; split; [reflexivity|discriminate]]. intros y Hy. cbv beta in Hy. unfold cmpv. rewrite Hy. reflexivity.
  - destruct IH as [(l1 & y & l3 & -> & H1 & H2 & H3)|(l1 & l3 & -> & H1 & H3)].
    + left. exists (x :: l1), y, l3. split; [reflexivity|]. split; [constructor; [unfold cmpv; rewrite E; reflexivity|assumption]|]. auto.
    + right. exists (x :: l1), l3. split; [reflexivity|]. split; [constructor; assumption|assumption].
  - right. exists [], (x :: c). cbn. split; [reflexivity|]. split; [constructor|]. constructor; [assumption|].
    apply Hgt. exists Gt. split; [reflexivity|discriminate].
Qed.
Lemma cmpv_of v x c : pcmp (fst x) v = Some c -> cmpv v x = c.
Proof. unfold cmpv. intros ->. reflexivity. Qed.

(** ** the invariant of a cache after the lookups [vs] *)
Record cinv (vs : list T) (c : list (T * string)) : Prop := mkCinv {
  ci_sorted : StronglySorted clt c;
  ci_fine : Forall (fun x => fine (fst x)) c;
  ci_entry : Forall (fun x => snd x = show (fst x) /\ find (same (fst x)) vs = Some (fst x)) c;
  ci_all : forall v, In v vs -> exists x, In x c /\ pcmp (fst x) v = Some Eq;
}.
Lemma same_ext v w : pcmp v w = Some Eq -> forall x, same v x = same w x.
Proof. intros H x. unfold same. rewrite (po_anti _ P v x), (po_anti _ P w x), (po_eq _ P _ _ x H). reflexivity. Qed.
Lemma find_ext {A} (f g : A -> bool) l : (forall x, f x = g x) -> find f l = find g l.
Proof. intros H. induction l as [|x l IH]; [reflexivity|]. cbn. rewrite H, IH. reflexivity. Qed.
Lemma find_app {A} (f : A -> bool) a b : find f (a ++ b) = match find f a with Some x => Some x | None => find f b end.
Proof. induction a as [|x a IH]; [reflexivity|]. cbn. destruct (f x); auto. Qed.
Lemma SSorted_insert l1 x l3 : StronglySorted clt (l1 ++ l3) -> Forall (fun y => clt y x) l1 -> Forall (fun y => clt x y) l3 ->
  StronglySorted clt (l1 ++ x :: l3).
Proof.
  induction l1 as [|a l1 IH]; cbn; intros Hs H1 H3.
  - constructor; assumption.
  - inversion Hs as [|? ? Hs' Ha]; subst. inversion H1; subst. constructor; [apply IH; assumption|].
    apply Forall_app in Ha as [Ha1 Ha3]. apply Forall_app. split; [assumption|]. constructor; assumption.
Qed.

Lemma cache_get_spec vs c v : cinv vs c -> fine v -> exists c' w,
  cache_get pcmp show c v = Some (c', show w) /\ find (same v) (vs ++ [v]) = Some w /\ cinv (vs ++ [v]) c'.
Proof.
  intros [Hs Hf He Ha] Hv. unfold cache_get. rewrite pbsearch_eq by assumption.
  destruct (split_at v c Hv Hf Hs) as [(l1 & y & l3 & -> & H1 & H2 & H3)|(l1 & l3 & -> & H1 & H3)].
  - rewrite (bsearch_one (cmpv v) l1 y l3 H1 (cmpv_of _ _ _ H2) H3). rewrite nth_error_app2, Nat.sub_diag by lia. cbn [nth_error].
    pose proof He as He'. rewrite Forall_forall in He'. destruct (He' y) as [E1 E2]; [apply in_or_app; right; left; reflexivity|].
    exists (l1 ++ y :: l3), (fst y). rewrite E1. split; [reflexivity|].
    assert (Ef : find (same v) vs = Some (fst y)) by (rewrite <- E2; apply find_ext; intros x; symmetry; apply same_ext; assumption).
    split; [rewrite find_app, Ef; reflexivity|]. constructor; auto.
    + eapply Forall_impl; [|exact He]. intros x [X1 X2]. split; [assumption|]. rewrite find_app, X2. reflexivity.
    + intros w Hw. apply in_app_or in Hw as [Hw|[<-|[]]]; [auto|]. exists y. split; [apply in_or_app; right; left; reflexivity|assumption].
  - assert (G1 : Forall (fun x => cmpv v x = Lt) l1) by (eapply Forall_impl; [|exact H1]; intros x Hx; apply cmpv_of; exact Hx).
    assert (G3 : Forall (fun x => cmpv v x = Gt) l3) by (eapply Forall_impl; [|exact H3]; intros x Hx; apply cmpv_of; exact Hx).
    rewrite (bsearch_none (cmpv v) l1 l3 G1 G3), insert_at_app.
    apply Forall_app in Hf as [Hf1 Hf3].
    rewrite pbsearch_eq; [|assumption|apply Forall_app; split; [assumption|constructor; assumption]].
    rewrite (bsearch_one (cmpv v) l1 (v, show v) l3 G1 (cmpv_of v (v, show v) Eq Hv) G3), nth_error_app2, Nat.sub_diag by lia. cbn [nth_error snd].
    assert (Hnone : find (same v) vs = None).
    { destruct (find (same v) vs) as [w|] eqn:Ew; [|reflexivity]. exfalso. apply find_some in Ew as [Hw Ew]. unfold same in Ew.
      destruct (pcmp w v) as [[]|] eqn:Ewv; try discriminate. destruct (Ha w Hw) as (x & Hx & Exw).
      assert (Exv : pcmp (fst x) v = Some Eq) by (rewrite (po_eq _ P _ _ v Exw); assumption).
      rewrite Forall_forall in H1, H3. apply in_app_or in Hx as [Hx|Hx]; [rewrite (H1 x Hx) in Exv|rewrite (H3 x Hx) in Exv]; discriminate. }
    assert (Esv : same v v = true) by (unfold same; rewrite Hv; reflexivity).
    exists (l1 ++ (v, show v) :: l3), v. split; [reflexivity|]. split; [rewrite find_app, Hnone; cbn; rewrite Esv; reflexivity|]. constructor.
    + apply SSorted_insert; [assumption| |].
      * eapply Forall_impl; [|exact H1]. intros x Hx. exact Hx.
      * eapply Forall_impl; [|exact H3]. intros x Hx. apply gt_lt. exact Hx.
    + apply Forall_app. split; [assumption|]. constructor; assumption.
    + apply Forall_app in He as [He1 He3].
      assert (Hm : forall x, (snd x = show (fst x) /\ find (same (fst x)) vs = Some (fst x)) -> snd x = show (fst x) /\ find (same (fst x)) (vs ++ [v]) = Some (fst x)).
      { intros x [X1 X2]. split; [assumption|]. rewrite find_app, X2. reflexivity. }
      apply Forall_app. split; [eapply Forall_impl; [|exact He1]; exact Hm|]. constructor; [|eapply Forall_impl; [|exact He3]; exact Hm].
      cbn. split; [reflexivity|]. rewrite find_app, Hnone. cbn. rewrite Esv. reflexivity.
    + intros w Hw. apply in_app_or in Hw as [Hw|[<-|[]]].
      * destruct (Ha w Hw) as (x & Hx & Ex). exists x. split; [|assumption]. apply in_app_or in Hx as [Hx|Hx]; apply in_or_app; [left|right; right]; assumption.
      * exists (v, show v). split; [apply in_or_app; right; left; reflexivity|exact Hv].
Qed.
Lemma cinv_nil : cinv [] [].
Proof. constructor; try constructor. intros v []. Qed.

(** the texts of a sequence of lookups *)
Definition first_text (vs : list T) (v : T) : string := match find (same v) vs with Some w => show w | None => EmptyString end.
Lemma cache_run_spec vs2 : forall vs c, cinv vs c -> Forall fine vs2 ->
  exists c', cache_run pcmp show c vs2 = Some (c', map (first_text (vs ++ vs2)) vs2) /\ cinv (vs ++ vs2) c'.
Proof.
  induction vs2 as [|v vs2 IH]; intros vs c Hc Hf.
  - exists c. cbn. rewrite app_nil_r. auto.
  - inversion Hf as [|? ? Hv Hf']; subst. destruct (cache_get_spec vs c v Hc Hv) as (c1 & w & E & Ef & Hc1).
    destruct (IH _ _ Hc1 Hf') as (c2 & E2 & Hc2). exists c2. cbn [cache_run map]. rewrite E, E2. rewrite <- app_assoc in *. cbn [app] in *.
    split; [|assumption]. do 2 f_equal. f_equal. unfold first_text. change (v :: vs2) with ([v] ++ vs2). rewrite app_assoc, find_app, Ef. reflexivity.
Qed.
End Proofs.

(** ** the orders used *)
Definition fkey (x : f64) : option (Z * Z * Z) :=
  match x with
  | S754_nan => None
  | S754_zero _ => Some (0, 0, 0)%Z
  | S754_infinity s => Some (if s then -2 else 2, 0, 0)%Z
  | S754_finite s m e => Some (if s then (-1, -e, -Zpos m) else (1, e, Zpos m))%Z
  end.
Definition lex (a b : Z * Z * Z) : comparison :=
  let '(a1, a2, a3) := a in let '(b1, b2, b3) := b in
  match Z.compare a1 b1 with Eq => match Z.compare a2 b2 with Eq => Z.compare a3 b3 | c => c end | c => c end.
Lemma fcmp_key a b : fcmp a b = match fkey a, fkey b with Some x, Some y => Some (lex x y) | _, _ => None end.
Proof.
  unfold fcmp, SFcompare, fkey, lex.
  destruct a as [[]|[]| |[] ma ea], b as [[]|[]| |[] mb eb]; try reflexivity.
  change (Z.compare (-1) (-1)) with Eq. cbn iota. rewrite (Z.compare_opp ea eb), (Z.compare_antisym ea eb).
  destruct (Z.compare ea eb); cbn [CompOpp]; try reflexivity.
Qed.
Lemma lex_refl a : lex a a = Eq.
Proof. destruct a as [[a1 a2] a3]. unfold lex. rewrite !Z.compare_refl. reflexivity. Qed.
Lemma lex_eq a b : lex a b = Eq -> a = b.
Proof.
  destruct a as [[a1 a2] a3], b as [[b1 b2] b3]. unfold lex.
  destruct (Z.compare_spec a1 b1); try discriminate. destruct (Z.compare_spec a2 b2); try discriminate. intros H3. apply Z.compare_eq in H3. congruence.
Qed.
Lemma lex_anti a b : lex b a = CompOpp (lex a b).
Proof.
  destruct a as [[a1 a2] a3], b as [[b1 b2] b3]. unfold lex. rewrite (Z.compare_antisym a1 b1), (Z.compare_antisym a2 b2), (Z.compare_antisym a3 b3).
  destruct (Z.compare a1 b1), (Z.compare a2 b2); reflexivity.
Qed.
Lemma lex_trans a b c : lex a b = Lt -> lex b c = Lt -> lex a c = Lt.
Proof.
  destruct a as [[a1 a2] a3], b as [[b1 b2] b3], c as [[c1 c2] c3]. unfold lex.
  destruct (Z.compare_spec a1 b1), (Z.compare_spec b1 c1), (Z.compare_spec a1 c1); try discriminate; try lia; subst; auto;
  destruct (Z.compare_spec a2 b2), (Z.compare_spec b2 c2), (Z.compare_spec a2 c2); try discriminate; try lia; subst; auto;
  rewrite !Z.compare_lt_iff; lia.
Qed.
Lemma fcmp_order : porder fcmp.
Proof.
  constructor.
  - intros a b Ha Hb. rewrite fcmp_key in *. destruct (fkey a), (fkey b); discriminate.
  - intros a b. rewrite !fcmp_key. destruct (fkey a), (fkey b); try reflexivity. cbn. rewrite lex_anti. reflexivity.
  - intros a b c. rewrite !fcmp_key. destruct (fkey a), (fkey b), (fkey c); try discriminate. intros [= H1] [= H2]. f_equal. eapply lex_trans; eassumption.
  - intros a b c. rewrite !fcmp_key. destruct (fkey a), (fkey b); try discriminate. intros [= H]. apply lex_eq in H. subst. reflexivity.
Qed.
Lemma fcmp_fine v : v <> fnan <-> fine fcmp v.
Proof.
  unfold fine, fnan. rewrite fcmp_key. destruct (fkey v) as [k|] eqn:E.
  - rewrite lex_refl. split; [reflexivity|]. intros _ ->. discriminate.
  - destruct v; try discriminate. split; [congruence|discriminate].
Qed.
Definition zcmp (a b : Z) : option comparison := Some (Z.compare a b).
Lemma zcmp_order : porder zcmp.
Proof.
  unfold zcmp. constructor.
  - discriminate.
  - intros a b. cbn. rewrite Z.compare_antisym. reflexivity.
  - intros a b c [= H1] [= H2]. f_equal. rewrite Z.compare_lt_iff in *. lia.
  - intros a b c [= H]. apply Z.compare_eq in H. congruence.
Qed.
Definition ncmp (a b : N) : option comparison := Some (N.compare a b).
Lemma ncmp_order : porder ncmp.
Proof.
  unfold ncmp. constructor.
  - discriminate.
  - intros a b. cbn. rewrite N.compare_antisym. reflexivity.
  - intros a b c [= H1] [= H2]. f_equal. rewrite N.compare_lt_iff in *. lia.
  - intros a b c [= H]. apply N.compare_eq in H. congruence.
Qed.
