(** * Proofs about the payload functions. *)
From Verif Require Import Base BaseFacts TelemetryModel FiltersModel PayloadModel PayloadSpec.
Open Scope string_scope. Open Scope list_scope. Open Scope nat_scope.

(** ** Indices *)
Lemma pidx_in : forall {A} (i : Z) (a : list A) x b, picks i a x b -> (Z.of_nat (List.length (a ++ x :: b)) < 2 ^ 63)%Z ->
  pidx i (List.length (a ++ x :: b)) = Z.of_nat (List.length a).
Proof.
  intros A i a x b [->| ->] H; unfold pidx; rewrite app_length in *; cbn [List.length] in *.
  - destruct (Z.ltb_spec (Z.of_nat (List.length a) + 1) 0); [lia|]. rewrite Z.mod_small; lia.
  - destruct (Z.ltb_spec (- (Z.of_nat (List.length b) + 1)) 0); [|lia]. rewrite Z.mod_small; lia.
Qed.
Lemma pget_in : forall {A} (i : Z) (a : list A) x b, picks i a x b -> (Z.of_nat (List.length (a ++ x :: b)) < 2 ^ 63)%Z ->
  pget i (a ++ x :: b) = Some x.
Proof.
  intros A i a x b H F. unfold pget. rewrite pidx_in by assumption.
  destruct (Z.ltb_spec (Z.of_nat (List.length a)) (Z.of_nat (List.length (a ++ x :: b)))) as [_|G]; [|rewrite app_length in G; cbn in G; lia].
  rewrite Nat2Z.id, nth_error_app2, Nat.sub_diag by lia. reflexivity.
Qed.
Lemma pset_in : forall {A} (i : Z) (a : list A) x y b, picks i a x b -> (Z.of_nat (List.length (a ++ x :: b)) < 2 ^ 63)%Z ->
  pset i y (a ++ x :: b) = a ++ y :: b.
Proof.
  intros A i a x y b H F. unfold pset. rewrite pidx_in by assumption. cbv zeta. rewrite Nat2Z.id.
  rewrite firstn_app, Nat.sub_diag, firstn_all, app_nil_r. f_equal. f_equal.
  change (1 + List.length a) with (Datatypes.S (List.length a)). rewrite <- (Nat.add_1_r (List.length a)).
  rewrite skipn_app, skipn_all2 by lia. replace (List.length a + 1 - List.length a) with 1 by lia. reflexivity.
Qed.
Lemma pget_out : forall {A} (i : Z) (l : list A), picks_none i (List.length l) -> (- 2 ^ 63 <= i < 2 ^ 63)%Z -> (Z.of_nat (List.length l) < 2 ^ 63)%Z ->
  pget i l = None.
Proof.
  intros A i l H R F. unfold pget. destruct (Z.ltb_spec (pidx i (List.length l)) (Z.of_nat (List.length l))) as [G|]; [|reflexivity].
  exfalso. unfold pidx in G. destruct (Z.ltb_spec i 0).
  - assert (i < - Z.of_nat (List.length l))%Z by (destruct H as [H|[H|H]]; lia).
    replace ((Z.of_nat (List.length l) - Z.abs i) mod 2 ^ 64)%Z with (Z.of_nat (List.length l) - Z.abs i + 2 ^ 64)%Z in G; [lia|].
    symmetry. rewrite <- (Z.mod_add _ 1) by lia. rewrite Z.mod_small; lia.
  - destruct H as [->|[H|H]]; [| |lia].
    + change ((0 - 1) mod 2 ^ 64)%Z with (2 ^ 64 - 1)%Z in G. lia.
    + rewrite Z.mod_small in G; lia.
Qed.
Lemma pget_app : forall {A} (i : Z) (l : list A) x, pget i l = Some x -> exists a b, l = a ++ x :: b /\ forall y, pset i y l = a ++ y :: b.
Proof.
  intros A i l x H. unfold pget in H. destruct (_ <? _)%Z; [|discriminate]. apply nth_error_split in H as (a & b & E & Hl).
  exists a, b. split; [exact E|]. intros y. unfold pset. cbv zeta. rewrite <- Hl, E. rewrite firstn_app, Nat.sub_diag, firstn_all, app_nil_r. f_equal. f_equal.
  change (1 + List.length a) with (Datatypes.S (List.length a)). rewrite <- (Nat.add_1_r (List.length a)).
  rewrite skipn_app, skipn_all2 by lia. replace (List.length a + 1 - List.length a) with 1 by lia. reflexivity.
Qed.

(** ** Tags *)
Lemma insert_own : forall k v tags tg old, insert_tag k v tags = (tg, old) ->
  old = own tags k /\ own tg k = Some v /\ forall k', k' <> k -> own tg k' = own tags k'.
Proof.
  intros k v tags tg old H. unfold insert_tag in H. destruct tags as [m|]; injection H as <- <-; (split; [reflexivity|]); unfold own, tm_insert.
  - split; [apply (alookup_ainsert_eq seqb seqb_eq)|]. intros k' Hk. apply (alookup_ainsert_ne seqb seqb_eq). auto.
  - split; [exact (alookup_ainsert_eq seqb seqb_eq k v [])|]. intros k' Hk. exact (alookup_ainsert_ne seqb seqb_eq k k' v [] (not_eq_sym Hk)).
Qed.
Lemma remove_own : forall k tags tg old, otm_ok tags -> remove_tag k tags = (tg, old) ->
  old = own tags k /\ own tg k = None /\ forall k', k' <> k -> own tg k' = own tags k'.
Proof.
  intros k tags tg old O H. unfold remove_tag in H. destruct tags as [m|]; injection H as <- <-; (split; [reflexivity|]); cbn [own]; unfold tm_remove.
  - split; [apply (alookup_aremove_eq seqb seqb_eq); exact O|]. intros k' Hk. apply (alookup_aremove_ne seqb seqb_eq). auto.
  - split; [reflexivity|auto].
Qed.
Lemma get_own : forall k tags g, get_from_tags k tags g = match own tags k with Some v => Some v | None => alookup seqb k g end.
Proof. intros k [m|] g; reflexivity. Qed.

Section Proofs.
Context `{Q : QLib} `{L : LuaLib}.
Variable gtags : tagmap.
Variable path : string.
Variable now : Z.
Notation invoke := (invoke gtags path now).
Notation exec := (exec gtags path now).

Lemma lopt_gives : forall o, gives (lopt o) o.
Proof. intros [s|]; reflexivity. Qed.
Lemma with_metric_in : forall a m b ls i f, picks (to_integer i) a m b -> fits (mkPay (a ++ m :: b) ls) ->
  with_metric (mkPay (a ++ m :: b) ls) i f = f m.
Proof. intros a m b ls i f H [F _]. unfold with_metric. cbn [p_metrics] in *. now rewrite (pget_in _ _ _ _ H F). Qed.
Lemma set_metric_in : forall a m b ls i x, picks (to_integer i) a m b -> fits (mkPay (a ++ m :: b) ls) ->
  set_metric (mkPay (a ++ m :: b) ls) i x = mkPay (a ++ x :: b) ls.
Proof. intros a m b ls i x H [F _]. unfold set_metric. cbn [p_metrics p_logs] in *. now rewrite (pset_in _ _ _ _ _ H F). Qed.
Lemma with_log_in : forall a l b ms i f, picks (to_integer i) a l b -> fits (mkPay ms (a ++ l :: b)) ->
  with_log (mkPay ms (a ++ l :: b)) i f = f l.
Proof. intros a m b ls i f H [_ F]. unfold with_log. cbn [p_logs] in *. now rewrite (pget_in _ _ _ _ H F). Qed.
Lemma set_log_in : forall a l b ms i x, picks (to_integer i) a l b -> fits (mkPay ms (a ++ l :: b)) ->
  set_log (mkPay ms (a ++ l :: b)) i x = mkPay ms (a ++ x :: b).
Proof. intros a m b ls i x H [_ F]. unfold set_log. cbn [p_metrics p_logs] in *. now rewrite (pset_in _ _ _ _ _ H F). Qed.
Lemma with_metric_out : forall p i f, picks_none (to_integer i) (List.length (p_metrics p)) -> fits p -> with_metric p i f = APanic.
Proof. intros p i f H [F _]. unfold with_metric. rewrite pget_out; auto. apply to_integer_range. Qed.
Lemma with_log_out : forall p i f, picks_none (to_integer i) (List.length (p_logs p)) -> fits p -> with_log p i f = APanic.
Proof. intros p i f H [_ F]. unfold with_log. rewrite pget_out; auto. apply to_integer_range. Qed.

(** ** Asking changes nothing *)
Lemma asks_same : forall p c p' v, asks c -> invoke p c = ARet p' v -> p' = p.
Proof.
  intros p c p' v A H. destruct c; try contradiction; cbn [PayloadModel.invoke] in H; unfold with_metric, with_log in H;
    repeat match type of H with
           | (match ?x with _ => _ end) = _ => destruct x; try discriminate
           end; inversion H; reflexivity.
Qed.
Lemma exec_asks : forall {S} (t : lua S) p st logs ms, only asks t -> exec p t = Some (st, LDone logs ms) -> logs = p_logs p /\ ms = p_metrics p.
Proof.
  intros S. induction t as [s|s|c k IH]; intros p st logs ms O H; cbn [PayloadModel.exec] in H; [injection H as _ <- <-; auto|discriminate|].
  cbn [only] in O. destruct O as [Oc Ok]. destruct (invoke p c) as [| |p' v] eqn:E; [discriminate|eapply IH; eauto|].
  apply asks_same in E; [|exact Oc]. subst p'. eapply IH; eauto.
Qed.

(** ** What a script can do to a point *)
Notation from_metric := (from_metric now).
Notation from_log := (from_log path now).
Lemma same_measure_refl : forall m, same_measure m m.
Proof. intros m. unfold same_measure. auto. Qed.
Lemma harden_push : forall n v, harden now (b_value v (b_name n soft_new)) = HOk (mkTelemetry n (VSet v) false None now None None).
Proof. reflexivity. Qed.
Lemma from_change : forall ms0 m m', from_metric ms0 m -> same_measure m m' -> from_metric ms0 m'.
Proof.
  intros ms0 m m' [(x & Hin & (A1 & A2 & A3 & A4 & A5))|(B1 & B2 & (x & B3) & B4 & B5)] (C1 & C2 & C3 & C4 & C5).
  - left. exists x. split; [exact Hin|]. unfold same_measure. repeat split; congruence.
  - right. repeat split; try congruence. exists x. congruence.
Qed.
Lemma from_log_change : forall ls0 l l', from_log ls0 l -> same_origin l l' -> from_log ls0 l'.
Proof.
  intros ls0 l l' [(x & Hin & (A1 & A2))|(B1 & B2)] (C1 & C2); [left; exists x; split; [exact Hin|]; split; congruence|right; split; congruence].
Qed.
Lemma set_metric_all : forall (R : telemetry -> Prop) p i m m', pget (to_integer i) (p_metrics p) = Some m -> Forall R (p_metrics p) -> (R m -> R m') ->
  Forall R (p_metrics (set_metric p i m')) /\ p_logs (set_metric p i m') = p_logs p /\ List.length (p_metrics (set_metric p i m')) = List.length (p_metrics p).
Proof.
  intros R p i m m' G F H. apply pget_app in G as (a & b & E & G). unfold set_metric. cbn [p_metrics p_logs]. rewrite G. rewrite E in *.
  apply Forall_app in F as [Fa Fb]. inversion Fb; subst. split; [|split; [reflexivity|now rewrite !app_length]].
  apply Forall_app. split; [exact Fa|]. constructor; auto.
Qed.
Lemma set_log_all : forall (R : logline -> Prop) p i l l', pget (to_integer i) (p_logs p) = Some l -> Forall R (p_logs p) -> (R l -> R l') ->
  Forall R (p_logs (set_log p i l')) /\ p_metrics (set_log p i l') = p_metrics p.
Proof.
  intros R p i l l' G F H. apply pget_app in G as (a & b & E & G). unfold set_log. cbn [p_metrics p_logs]. rewrite G. rewrite E in *.
  apply Forall_app in F as [Fa Fb]. inversion Fb; subst. split; [|reflexivity].
  apply Forall_app. split; [exact Fa|]. constructor; auto.
Qed.
Definition good (ms0 : list telemetry) (ls0 : list logline) (p : payload) : Prop := Forall (from_metric ms0) (p_metrics p) /\ Forall (from_log ls0) (p_logs p).
Lemma invoke_good : forall ms0 ls0 p c p' v, good ms0 ls0 p -> invoke p c = ARet p' v -> good ms0 ls0 p'.
Proof.
  intros ms0 ls0 p c p' v [Gm Gl] H.
  destruct c; cbn [PayloadModel.invoke] in H; unfold with_metric, with_log in H;
    repeat match type of H with
           | (match pget ?i ?l with _ => _ end) = _ => destruct (pget i l) eqn:?G; try discriminate
           | (match ?x with _ => _ end) = _ => destruct x eqn:?; try discriminate
           end; injection H as Hp _; rewrite <- Hp; try (split; assumption).
  all: try (match goal with GG : pget (to_integer ?i) (p_metrics ?p) = Some ?m |- good ?ms0 _ (set_metric ?p ?i ?m') =>
        destruct (set_metric_all (from_metric ms0) p i m m' GG) as (F1 & F2 & _); [assumption|
          intros Hm; apply (from_change _ m); [exact Hm|split; [reflexivity|auto]]|split; [exact F1|now rewrite F2]] end).
  all: try (match goal with GG : pget (to_integer ?i) (p_logs ?p) = Some ?l |- good _ ?ls0 (set_log ?p ?i ?l') =>
        destruct (set_log_all (from_log ls0) p i l l' GG) as (F1 & F2); [assumption|
          intros Hm; apply (from_log_change _ l); [exact Hm|split; reflexivity]|split; [now rewrite F2|exact F1]] end).
  - split; [exact Gm|constructor].
  - split; [constructor|exact Gl].
  - split; [exact Gm|]. cbn [p_logs]. apply Forall_app. split; [exact Gl|]. constructor; [|constructor]. right. split; reflexivity.
  - split; [|exact Gl]. cbn [p_metrics]. apply Forall_app. split; [exact Gm|]. constructor; [|constructor]. right.
    match goal with HH : harden _ _ = HOk _ |- _ => rewrite harden_push in HH; injection HH as <- end. cbn. repeat split; auto. eauto.
Qed.
Lemma exec_good : forall {S} (t : lua S) ms0 ls0 p st logs ms, good ms0 ls0 p -> exec p t = Some (st, LDone logs ms) -> Forall (from_metric ms0) ms /\ Forall (from_log ls0) logs.
Proof.
  intros S. induction t as [s|s|c k IH]; intros ms0 ls0 p st logs ms G H; cbn [PayloadModel.exec] in H; [injection H as _ <- <-; exact G|discriminate|].
  destruct (invoke p c) as [| |p' v] eqn:E; [discriminate|eapply IH; eauto|]. eapply IH; [|exact H]. eapply invoke_good; eauto.
Qed.
Lemma start_good : forall ms ls, good ms ls (mkPay ms ls).
Proof.
  intros ms ls. split; cbn [p_metrics p_logs]; apply Forall_forall; intros x Hx; left; exists x; (split; [exact Hx|]); [apply same_measure_refl|split; reflexivity].
Qed.
End Proofs.
