(** * The text caches: property C43. *)
From Verif Require Import Base BaseFacts CacheModel CacheProofs.
Open Scope string_scope. Open Scope list_scope. Open Scope nat_scope.

(** Floats without NaN: every lookup returns the text of the first looked-up value that is numerically equal. *)
Theorem C43_floats_partial show vs : ~ In fnan vs -> exists c texts, cache_run fcmp show [] vs = Some (c, texts) /\
  Forall2 (fun v s => exists w, find (fun x => feqb x v) vs = Some w /\ s = show w) vs texts.
Proof.
  intros Hn. destruct (cache_run_spec fcmp show fcmp_order vs [] [] (cinv_nil fcmp show)) as (c & E & Hc).
  { apply Forall_forall. intros v Hv. apply fcmp_fine. intros ->. contradiction. }
  exists c. eexists. split; [exact E|]. cbn [app].
  assert (G : forall l, incl l vs -> Forall2 (fun v s => exists w, find (fun x => feqb x v) vs = Some w /\ s = show w) l (map (first_text fcmp show vs) l)).
  { induction l as [|v l IH]; intros Hi; constructor; [|apply IH; intros x Hx; apply Hi; right; assumption].
    unfold first_text. change (find (same fcmp v) vs) with (find (fun x => feqb x v) vs).
    destruct (find (fun x => feqb x v) vs) as [w|] eqn:Ef; [eauto|]. exfalso.
    pose proof (find_none _ _ Ef v (Hi v (or_introl eq_refl))) as F. cbv beta in F.
    assert (Hv : fine fcmp v) by (apply fcmp_fine; intros ->; apply Hn; apply Hi; left; reflexivity).
    unfold feqb, SFeqb in F. unfold fine, fcmp in Hv. rewrite Hv in F. discriminate. }
  apply G. apply incl_refl.
Qed.
(** Integers and counts: every lookup returns the text of the value itself. *)
Lemma exact_texts {T} (pcmp : T -> T -> option comparison) show vs : porder pcmp -> (forall a b, pcmp a b = Some Eq <-> a = b) ->
  exists c, cache_run pcmp show [] vs = Some (c, map show vs).
Proof.
  intros P He. destruct (cache_run_spec pcmp show P vs [] [] (cinv_nil pcmp show)) as (c & E & Hc).
  { apply Forall_forall. intros v _. apply He. reflexivity. }
  exists c. rewrite E. do 2 f_equal. apply map_ext_in. intros v Hv. cbn [app]. unfold first_text.
  destruct (find (same pcmp v) vs) as [w|] eqn:Ef.
  - apply find_some in Ef as [_ Ef]. unfold same in Ef. destruct (pcmp w v) as [[]|] eqn:Ew; try discriminate. apply He in Ew. congruence.
  - exfalso. pose proof (find_none _ _ Ef v Hv) as F. unfold same in F. assert (pcmp v v = Some Eq) as X by (apply He; reflexivity). rewrite X in F. discriminate.
Qed.
Theorem C43_times show vs : exists c, cache_run zcmp show [] vs = Some (c, map show vs).
Proof. apply exact_texts; [apply zcmp_order|]. intros a b. unfold zcmp. split; [intros [= H]; apply Z.compare_eq; assumption|intros ->; rewrite Z.compare_refl; reflexivity]. Qed.
Theorem C43_counts show vs : exists c, cache_run ncmp show [] vs = Some (c, map show vs).
Proof. apply exact_texts; [apply ncmp_order|]. intros a b. unfold ncmp. split; [intros [= H]; apply N.compare_eq; assumption|intros ->; rewrite N.compare_refl; reflexivity]. Qed.

(** The full claim is false: looking up NaN panics, whatever the cache holds. *)
Lemma nan_search c : c <> [] -> pbsearch fcmp fnan c = None.
Proof.
  intros Hc. assert (N : forall x, fcmp x fnan = None) by (intros x; rewrite fcmp_key; destruct (fkey x); reflexivity).
  unfold pbsearch. destruct c as [|y c']; [contradiction|]. set (c := y :: c') in *.
  assert (G : forall fuel base size, pbs_loop fcmp fnan c fuel base size = None \/ exists b, pbs_loop fcmp fnan c fuel base size = Some b /\ (b = base \/ b < List.length c)).
  { induction fuel as [|fuel IH]; intros base size; [right; exists base; cbn; auto|]. cbn [pbs_loop]. destruct (size <=? 1); [right; exists base; auto|].
    destruct (nth_error c (base + size / 2)) as [x|] eqn:E; [rewrite N; left; reflexivity|].
    destruct (IH base (size - size / 2)) as [H|H]; auto. }
  destruct (G (List.length c) 0 (List.length c)) as [->|(b & -> & Hb)]; [reflexivity|].
  assert (Hl : b < List.length c) by (destruct Hb as [->|]; [cbn; lia|assumption]).
  destruct (nth_error c b) as [x|] eqn:E; [rewrite N; reflexivity|]. apply nth_error_None in E. lia.
Qed.
Theorem C43_refuted show c : cache_get fcmp show c fnan = None.
Proof.
  unfold cache_get. destruct c as [|y c].
  - cbn. reflexivity.
  - rewrite nan_search by discriminate. reflexivity.
Qed.
Example C43_example : let one := fofZ 1 in let two := fofZ 2 in
  option_map snd (cache_run fcmp (fun v => if feqb v two then "2" else if feqb v one then "1" else "0") [] [two; one; S754_zero true; two; S754_zero false; one])
    = Some ["2"; "1"; "0"; "2"; "0"; "1"].
Proof. vm_compute. reflexivity. Qed.

Print Assumptions C43_floats_partial.
Print Assumptions C43_times.
Print Assumptions C43_counts.
Print Assumptions C43_refuted.
