(** * Proofs about one process forwarding to another. *)
From Verif Require Import Base BaseFacts TelemetryModel TelemetrySpec ProtoModel FramingModel FramingSpec NativeModel NativeSpec NativeProofs NativeProps FlowModel FlowSpec ShownSpec ArriveSpec RelaySpec.
From Coq Require Import Lia.
Open Scope string_scope. Open Scope list_scope. Open Scope nat_scope.

Section Proofs.
Context {Q : QLib}.
Lemma calls_app early cs1 : forall cs2 s, native_calls early (cs1 ++ cs2) s = match native_calls early cs1 s with Some s' => native_calls early cs2 s' | None => None end.
Proof. induction cs1 as [|c cs1 IH]; intros cs2 s; cbn [native_calls app]; [reflexivity|]. destruct (native_call early c s); [apply IH|reflexivity]. Qed.
Lemma calls_deliver early cs : Forall (fun c => flushing c = false) cs -> forall s,
  native_calls early cs s = Some (fold_left (fun s e => native_deliver e s) (filter taken (delivered cs)) s).
Proof.
  induction 1 as [|c cs Hc H IH]; intros s; [reflexivity|]. destruct c as [e| | |]; try discriminate. cbn [native_calls native_call delivered flat_map app filter].
  destruct (taken e); cbn [fold_left]; apply IH.
Qed.
(** the calls are the batches, then what is still in the buffer *)
Lemma rounds_run early cs bs : rounds cs bs -> exists tail, forall s,
  native_calls early cs s = option_map (fun s' => fold_left (fun s e => native_deliver e s) tail s') (run_batches early bs s).
Proof.
  induction 1 as [cs H|cs f r bs H Hf Hr IH].
  - exists (filter taken (delivered cs)). intros s. rewrite calls_deliver by exact H. reflexivity.
  - destruct IH as (tail & IH). exists tail. intros s. rewrite calls_app, calls_deliver by exact H. cbn [native_calls run_batches].
    replace (native_call early f) with (native_flush early []) by (destruct f; [discriminate|reflexivity..]). destruct (native_flush early [] _); [apply IH|reflexivity].
Qed.
Lemma deliver_stream b : forall s, n_stream (fold_left (fun s e => native_deliver e s) b s) = n_stream s.
Proof. intros s. rewrite deliver_all. reflexivity. Qed.
Lemma rounds_sent early tags cs bs : (forall n, early n <= n) -> rounds cs bs -> forall left, List.length (List.concat (map (sink_frame tags) bs)) <= left ->
  exists s, native_calls early cs (connected tags left) = Some s /\ sent s = List.concat (map (sink_frame tags) bs).
Proof.
  intros He R left HL. destruct (rounds_run early cs bs R) as (tail & E). destruct (C50_sink_writes_batches early tags [] left 0%N [] bs He HL) as (left' & E').
  eexists. split; [rewrite E; unfold connected; rewrite E'; reflexivity|]. unfold sent. rewrite deliver_stream. reflexivity.
Qed.
Lemma rounds_exist cs : exists bs, rounds cs bs.
Proof.
  assert (G : forall cs pre, Forall (fun c => flushing c = false) pre -> exists bs, rounds (pre ++ cs) bs).
  { clear. induction cs as [|c cs IH]; intros pre Hp; [exists []; constructor; rewrite app_nil_r; exact Hp|].
    destruct (flushing c) eqn:Ef.
    - destruct (IH [] (Forall_nil _)) as (bs & R). eexists. apply rounds_flush; [exact Hp|exact Ef|exact R].
    - destruct (IH (pre ++ [c])) as (bs & R); [apply Forall_app; auto|]. exists bs. rewrite <- app_assoc in R. exact R. }
  apply (G cs []). constructor.
Qed.
Lemma delivered_app c1 c2 : delivered (c1 ++ c2) = delivered c1 ++ delivered c2.
Proof. apply flat_map_app. Qed.
(** after a last flush nothing is left out *)
Lemma rounds_all cs bs : rounds cs bs -> forall pre f, cs = pre ++ [f] -> flushing f = true -> List.concat bs = filter taken (delivered cs).
Proof.
  induction 1 as [cs H|cs g r bs H Hg Hr IH]; intros pre f E Hf.
  - exfalso. rewrite Forall_forall in H. specialize (H f). rewrite E in H. rewrite H in Hf; [discriminate|]. apply in_or_app. right. left. reflexivity.
  - cbn [List.concat]. rewrite delivered_app, filter_app. f_equal.
    replace (delivered (g :: r)) with (delivered r) by (destruct g; [discriminate|reflexivity..]).
    destruct r as [|c r] using rev_ind; [inversion Hr as [? ? E1 E2|? ? ? ? ? ? ? E1 E2]; [reflexivity|destruct cs0; discriminate]|]. clear IHr.
    apply (IH r c Logic.eq_refl). replace (cs ++ g :: r ++ [c]) with ((cs ++ g :: r) ++ [c]) in E by (rewrite <- app_assoc; reflexivity). apply app_inj_tail in E as [_ ->]. exact Hf.
Qed.
Lemma rounds_in cs bs : rounds cs bs -> forall e, taken e = true -> flushed_after e cs -> In e (List.concat bs).
Proof.
  induction 1 as [cs H|cs g r bs H Hg Hr IH]; intros e Ht (c1 & c2 & f & c3 & E & Hf).
  - exfalso. rewrite Forall_forall in H. specialize (H f). rewrite E in H. rewrite H in Hf; [discriminate|]. apply in_or_app. right. right. apply in_or_app. right. left. reflexivity.
  - cbn [List.concat]. apply in_or_app. assert (S := E). revert S. clear E. revert c1. induction H as [|c cs Hc H IHc]; intros c1 E.
    + right. destruct c1 as [|c1 c1']; cbn [app] in E; injection E as -> E; [discriminate|]. apply IH; [exact Ht|]. exists c1', c2, f, c3. auto.
    + destruct c1 as [|c1 c1']; cbn [app] in E; injection E as -> E.
      * left. cbn [delivered flat_map app filter]. rewrite Ht. left. reflexivity.
      * destruct (IHc c1' E) as [G|G]; [left|right; exact G]. cbn [delivered flat_map]. rewrite filter_app. apply in_or_app. right. exact G.
Qed.
End Proofs.
