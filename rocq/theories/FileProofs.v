(** * Proofs about the file source. *)
From Verif Require Import Base BaseFacts FileModel FileSpec.
From Coq Require Import Permutation.
Open Scope list_scope. Open Scope nat_scope.

(** ** Lines *)
Lemma unlines_app a b : unlines (a ++ b) = unlines a ++ unlines b.
Proof. unfold unlines. rewrite map_app, concat_app. reflexivity. Qed.
Lemma unlines_cons l ls : unlines (l :: ls) = l ++ 10%N :: unlines ls.
Proof. unfold unlines. cbn. rewrite <- app_assoc. reflexivity. Qed.
Lemma unlines_nil ls : unlines ls = [] -> ls = [].
Proof. destruct ls as [|l ls]; [reflexivity|]. rewrite unlines_cons. destruct l; discriminate. Qed.
Lemma unlines_no_newline ls : line (unlines ls) -> ls = [].
Proof.
  destruct ls as [|l ls]; [reflexivity|]. rewrite unlines_cons. intros H. contradiction H.
  apply in_or_app. right. left. reflexivity.
Qed.
Lemma split_line_some bs l rest : split_line bs = Some (l, rest) -> exists l0, l = l0 ++ [10%N] /\ line l0 /\ bs = l ++ rest.
Proof.
  revert l. induction bs as [|b bs IH]; intros l H; [discriminate|]. cbn in H. destruct (N.eqb_spec b 10) as [->|Hb].
  - injection H as <- <-. exists []. split; [reflexivity|]. split; [intros []|reflexivity].
  - destruct (split_line bs) as [[l' s]|]; [|discriminate]. injection H as <- ->. destruct (IH l' eq_refl) as (l0 & -> & L & ->).
    exists (b :: l0). split; [reflexivity|]. split; [intros [E|E]; [congruence|exact (L E)]|reflexivity].
Qed.
Lemma split_line_none bs : split_line bs = None -> line bs.
Proof.
  induction bs as [|b bs IH]; intros H; [intros []|]. cbn in H. destruct (N.eqb_spec b 10) as [->|Hb]; [discriminate|].
  destruct (split_line bs) as [[l' s]|]; [discriminate|]. intros [E|E]; [congruence|exact (IH eq_refl E)].
Qed.
Lemma line_split_eq (a b c d : bytes) : line a -> line c -> a ++ 10%N :: b = c ++ 10%N :: d -> a = c /\ b = d.
Proof.
  revert c. induction a as [|x a IH]; intros [|y c] A C E; cbn in E.
  - injection E as ->. auto.
  - injection E as <- _. contradiction C. left. reflexivity.
  - injection E as -> _. contradiction A. left. reflexivity.
  - injection E as -> E. destruct (IH c) as [-> ->]; [intros H; apply A; right; exact H|intros H; apply C; right; exact H|exact E|auto].
Qed.
Lemma pop_newline l : pop (l ++ [10%N]) = l.
Proof. unfold pop. rewrite rev_app_distr. cbn. apply rev_involutive. Qed.

(** ** The world moves on *)
Inductive later (w : world) : world -> Prop :=
| later_refl : later w w
| later_tick_r w' : later w w' -> later w (tick w').
Lemma later_trans a b c : later a b -> later b c -> later a c.
Proof. intros A B. induction B as [|c B IH]; [exact A|]. constructor. exact IH. Qed.
Lemma later_tick w : later w (tick w).
Proof. constructor. constructor. Qed.
Lemma later_ind' (P : world -> world -> Prop) : (forall w, P w w) -> (forall a b, P a b -> P a (tick b)) -> forall a b, later a b -> P a b.
Proof. intros R T a b H. induction H; auto. Qed.
Lemma sched_nil_later w w' : sched w = [] -> later w w' -> w' = w.
Proof. intros E H. induction H as [|w' H IH]; [reflexivity|]. rewrite IH. unfold tick. rewrite E. reflexivity. Qed.

Lemma act_sched w a : sched (act w a) = sched w.
Proof. destruct a; reflexivity. Qed.
Lemma acts_sched acts w : sched (fold_left act acts w) = sched w.
Proof. revert w. induction acts as [|a r IH]; intros w; cbn; [reflexivity|]. rewrite IH. apply act_sched. Qed.

Definition weight (a : action) : nat := match a with Append _ bs | Rewrite _ bs => List.length bs | _ => 0 end.
Lemma to_come_eq w : to_come w = list_sum (map weight (coming w)).
Proof. reflexivity. Qed.
Lemma act_size i off w a : List.length (skipn off (files (act w a) i)) <= List.length (skipn off (files w i)) + weight a.
Proof.
  destruct a; cbn; unfold set_file; try lia.
  - destruct (Nat.eqb_spec i i0) as [->|]; [|lia]. rewrite !skipn_length, app_length. lia.
  - destruct (Nat.eqb_spec i i0) as [->|]; [|lia]. rewrite !skipn_length. lia.
Qed.
Lemma acts_size i off acts w :
  List.length (skipn off (files (fold_left act acts w) i)) <= List.length (skipn off (files w i)) + list_sum (map weight acts).
Proof.
  revert w. induction acts as [|a r IH]; intros w; cbn [fold_left map]; [cbn; lia|].
  specialize (IH (act w a)). pose proof (act_size i off w a). change (list_sum (weight a :: map weight r)) with (weight a + list_sum (map weight r)). lia.
Qed.
Lemma tick_size i off w : List.length (skipn off (files (tick w) i)) + to_come (tick w) <= List.length (skipn off (files w i)) + to_come w.
Proof.
  unfold tick. destruct (sched w) as [|acts r] eqn:E; [lia|].
  rewrite !to_come_eq. unfold coming. rewrite acts_sched, E. cbn [sched List.concat]. rewrite map_app, list_sum_app.
  pose proof (acts_size i off acts (mkWorld (names w) (files w) r)) as H. cbn [files] in H. lia.
Qed.

Lemma tick_coming (P : action -> Prop) w : Forall P (coming w) -> Forall P (coming (tick w)).
Proof.
  unfold coming, tick. destruct (sched w) as [|acts r] eqn:E; [rewrite E; auto|]. rewrite acts_sched. cbn. intros H.
  apply Forall_app in H. apply H.
Qed.
Lemma tick_split w : exists acts r, (sched w = [] /\ acts = [] /\ r = [] \/ sched w = acts :: r) /\
  tick w = fold_left act acts (mkWorld (names w) (files w) r) /\ incl acts (coming w).
Proof.
  unfold tick, coming. destruct (sched w) as [|acts r] eqn:E.
  - exists [], []. split; [left; auto|]. split; [destruct w; cbn in *; congruence|intros x []].
  - exists acts, r. split; [right; reflexivity|]. split; [reflexivity|]. cbn. apply incl_appl, incl_refl.
Qed.

Lemma acts_lines i acts w : Forall (fun a => match a with
                   | Append j bs => j = i -> exists ls, Forall line ls /\ bs = unlines ls
                   | Rewrite j _ => j <> i
                   | _ => True
                   end) acts -> exists ls, Forall line ls /\ files (fold_left act acts w) i = files w i ++ unlines ls.
Proof.
  revert w. induction acts as [|a r IH]; intros w H; cbn.
  - exists []. rewrite app_nil_r. auto.
  - inversion H as [|? ? Ha Hr]; subst. destruct (IH (act w a) Hr) as (ls & L & E).
    assert (A : exists l0, Forall line l0 /\ files (act w a) i = files w i ++ unlines l0).
    { destruct a as [j bs|j bs|q j|q]; cbn in Ha |- *; unfold set_file.
      - destruct (Nat.eqb_spec i j) as [->|N].
        + destruct (Ha eq_refl) as (l0 & L0 & ->). exists l0. auto.
        + exists []. rewrite app_nil_r. auto.
      - destruct (Nat.eqb_spec i j) as [->|N]; [contradiction|]. exists []. rewrite app_nil_r. auto.
      - exists []. rewrite app_nil_r. auto.
      - exists []. rewrite app_nil_r. auto. }
    destruct A as (l0 & L0 & E0). exists (l0 ++ ls). split; [apply Forall_app; auto|].
    rewrite E, E0, unlines_app, app_assoc. reflexivity.
Qed.
Lemma later_lines i w w' : later w w' -> lines_only i w ->
  lines_only i w' /\ exists ls, Forall line ls /\ files w' i = files w i ++ unlines ls.
Proof.
  intros L. revert w w' L. apply (later_ind' (fun w w' => lines_only i w -> lines_only i w' /\ exists ls, Forall line ls /\ files w' i = files w i ++ unlines ls)).
  - intros w H. split; [exact H|]. exists []. rewrite app_nil_r. auto.
  - intros a b IH H. destruct (IH H) as [Hb (ls & L & E)]. split; [apply tick_coming, Hb|].
    destruct (tick_split b) as (acts & r & _ & -> & I).
    destruct (acts_lines i acts (mkWorld (names b) (files b) r)) as (l2 & L2 & E2).
    { rewrite Forall_forall in *. unfold lines_only in Hb. rewrite Forall_forall in Hb. intros x Hx. apply Hb, I, Hx. }
    exists (ls ++ l2). split; [apply Forall_app; auto|]. rewrite E2. cbn. rewrite E, unlines_app, app_assoc. reflexivity.
Qed.
Lemma untouched_lines i w : untouched i w -> lines_only i w.
Proof.
  unfold untouched, lines_only. rewrite !Forall_forall. intros H a Ha. specialize (H a Ha). destruct a; auto. intros; contradiction.
Qed.
Lemma acts_untouched i acts w : Forall (fun a => match a with Append j _ | Rewrite j _ => j <> i | _ => True end) acts ->
  files (fold_left act acts w) i = files w i.
Proof.
  revert w. induction acts as [|a r IH]; intros w H; cbn; [reflexivity|]. inversion H as [|? ? Ha Hr]; subst.
  rewrite (IH _ Hr). destruct a as [j bs|j bs|q j|q]; cbn; unfold set_file; try reflexivity; destruct (Nat.eqb_spec i j) as [->|N]; congruence.
Qed.
Lemma later_untouched i w w' : later w w' -> untouched i w -> untouched i w' /\ files w' i = files w i.
Proof.
  intros L. revert w w' L. apply (later_ind' (fun w w' => untouched i w -> untouched i w' /\ files w' i = files w i)); [auto|].
  intros a b IH H. destruct (IH H) as [Hb E]. split; [apply tick_coming, Hb|].
  destruct (tick_split b) as (acts & r & _ & -> & I). rewrite acts_untouched; [exact E|].
  unfold untouched in Hb. rewrite Forall_forall in *. intros x Hx. apply Hb, I, Hx.
Qed.
Lemma acts_stays p acts w : Forall (fun a => match a with Link q _ | Unlink q => q <> p | _ => True end) acts ->
  named (fold_left act acts w) p = named w p.
Proof.
  revert w. induction acts as [|a r IH]; intros w H; cbn; [reflexivity|]. inversion H as [|? ? Ha Hr]; subst.
  rewrite (IH _ Hr). destruct a as [j bs|j bs|q j|q]; cbn; unfold named; cbn; try reflexivity.
  - apply (alookup_ainsert_ne seqb seqb_eq). congruence.
  - apply (alookup_aremove_ne seqb seqb_eq). congruence.
Qed.
Lemma later_stays p i w w' : later w w' -> stays p i w -> stays p i w'.
Proof.
  intros L. revert w w' L. apply (later_ind' (fun w w' => stays p i w -> stays p i w')); [auto|].
  intros a b IH H. destruct (IH H) as [E Hb]. split; [|apply tick_coming, Hb].
  destruct (tick_split b) as (acts & r & _ & -> & I). rewrite acts_stays; [exact E|].
  rewrite Forall_forall in *. intros x Hx. apply Hb, I, Hx.
Qed.

(** ** Reading *)
Lemma skipn_grow (off : nat) (a b : bytes) : off <= List.length a -> skipn off (a ++ b) = skipn off a ++ b.
Proof. intros H. rewrite skipn_app. replace (off - List.length a) with 0 by lia. reflexivity. Qed.
Lemma firstn_skipn_len {A} n (l : list A) : skipn (List.length (firstn n l)) l = skipn n l.
Proof.
  revert l. induction n as [|n IH]; intros [|x l]; cbn; auto.
Qed.

Lemma skipn_skipn' {A} x y (l : list A) : skipn (x + y) l = skipn x (skipn y l).
Proof.
  revert l. induction y as [|y IH]; intros l; [rewrite Nat.add_0_r; reflexivity|]. rewrite Nat.add_succ_r.
  destruct l as [|a l]; cbn; [rewrite skipn_nil; reflexivity|apply IH].
Qed.

Section Watcher.
Variable cap : nat.
Variable utf8_ok : bytes -> bool.
Hypothesis Hcap : 0 < cap.

Lemma read_until_later fuel r w acc bs r' w' : read_until cap fuel r w acc = (bs, r', w') -> later w w' /\ r_ino r' = r_ino r.
Proof.
  revert r w acc. induction fuel as [|fuel IH]; intros r w acc H; cbn in H.
  - injection H as <- <- <-. split; [constructor|reflexivity].
  - destruct (fill_buf cap r w) as [r1 w1] eqn:F.
    assert (A : later w w1 /\ r_ino r1 = r_ino r).
    { unfold fill_buf in F. destruct (r_buf r); injection F as <- <-; (split; [|reflexivity]); [apply later_tick|constructor]. }
    destruct A as [A E]. destruct (r_buf r1) as [|b bb] eqn:B.
    + injection H as <- <- <-. auto.
    + destruct (split_line (b :: bb)) as [[l rest]|].
      * injection H as <- <- <-. auto.
      * destruct (IH _ _ _ H) as [L2 E2]. split; [eapply later_trans; eassumption|]. rewrite E2. exact E.
Qed.

(** fill_buf keeps what is unread and never shows an empty buffer before the end of the file *)
Lemma fill_spec r w i : r_ino r = i -> lines_only i w -> List.length (r_buf r) <= r_off r <= List.length (files w i) ->
  exists r1 w1 new, fill_buf cap r w = (r1, w1) /\ later w w1 /\ Forall line new /\ files w1 i = files w i ++ unlines new /\
    r_ino r1 = i /\ List.length (r_buf r1) <= r_off r1 <= List.length (files w1 i) /\
    r_buf r1 ++ skipn (r_off r1) (files w1 i) = r_buf r ++ skipn (r_off r) (files w i) ++ unlines new /\
    (r_buf r1 = [] -> skipn (r_off r1) (files w1 i) = []) /\
    List.length (r_buf r1) + List.length (skipn (r_off r1) (files w1 i)) + to_come w1 <=
      List.length (r_buf r) + List.length (skipn (r_off r) (files w i)) + to_come w.
Proof.
  intros <- HL Ho. unfold fill_buf. destruct (r_buf r) as [|b bb] eqn:B.
  - pose proof (later_tick w) as L. destruct (later_lines (r_ino r) w _ L HL) as [_ (new & N & E)].
    pose proof (tick_size (r_ino r) (r_off r) w) as Z.
    set (c := files (tick w) (r_ino r)) in *.
    set (bs := firstn cap (skipn (r_off r) c)).
    assert (Sk : skipn (r_off r + List.length bs) c = skipn cap (skipn (r_off r) c)).
    { unfold bs. rewrite <- (firstn_skipn_len cap (skipn (r_off r) c)). rewrite Nat.add_comm. rewrite skipn_skipn'. reflexivity. }
    assert (Cut : bs ++ skipn (r_off r + List.length bs) c = skipn (r_off r) c) by (rewrite Sk; apply firstn_skipn).
    exists (mkReader (r_ino r) (r_off r + List.length bs) bs), (tick w), new. cbn [r_ino r_off r_buf].
    repeat split; try assumption; try lia.
    + assert (List.length bs <= List.length c - r_off r).
      { unfold bs. rewrite firstn_length, skipn_length. lia. }
      assert (r_off r <= List.length c) by (rewrite E, app_length; cbn in Ho; lia). fold c. lia.
    + fold c. rewrite Cut. rewrite E. apply skipn_grow. cbn in Ho; lia.
    + fold c. intros Hn. rewrite Sk. unfold bs in Hn. destruct (skipn (r_off r) c) as [|x l]; [apply skipn_nil|].
      destruct cap; [lia|discriminate].
    + fold c. rewrite <- Cut in Z. rewrite app_length in Z. cbn [List.length]. lia.
  - exists r, w, []. rewrite app_nil_r, B. cbn [unlines List.concat map]. rewrite !app_nil_r.
    repeat split; try assumption; try reflexivity; try constructor; try (rewrite ?B in *; lia). discriminate.
Qed.

Definition r_at (r : reader) (i : nat) (w : world) : Prop := r_ino r = i /\ List.length (r_buf r) <= r_off r <= List.length (files w i).
Definition r_unread (r : reader) (w : world) : bytes := r_buf r ++ skipn (r_off r) (files w (r_ino r)).

Lemma read_until_lines fuel : forall r w acc i rest, r_at r i w -> lines_only i w -> line acc -> Forall line rest ->
  acc ++ r_unread r w = unlines rest ->
  List.length (r_buf r) + List.length (skipn (r_off r) (files w i)) + to_come w < fuel ->
  exists bs r' w' new, read_until cap fuel r w acc = (bs, r', w') /\ later w w' /\ Forall line new /\
    files w' i = files w i ++ unlines new /\ r_at r' i w' /\
    match rest ++ new with
    | [] => bs = [] /\ r_unread r' w' = []
    | l :: tl => bs = l ++ [10%N] /\ r_unread r' w' = unlines tl
    end.
Proof.
  induction fuel as [|fuel IH]; intros r w acc i rest [Hi Ho] HL Ha Hr E Hf; [lia|]. cbn [read_until].
  unfold r_unread in *. rewrite Hi in E.
  destruct (fill_spec r w i Hi HL Ho) as (r1 & w1 & new & F & L & N & G & Hi1 & Ho1 & U & Z & M). rewrite F.
  rewrite app_assoc in U. assert (E1 : acc ++ r_buf r1 ++ skipn (r_off r1) (files w1 i) = unlines (rest ++ new)).
  { rewrite U, !app_assoc, <- (app_assoc acc), E, unlines_app. reflexivity. }
  destruct (r_buf r1) as [|b bb] eqn:B.
  - rewrite (Z eq_refl) in E1. cbn in E1. rewrite app_nil_r in E1.
    assert (Hn : rest ++ new = []). { apply unlines_no_newline. rewrite <- E1. exact Ha. }
    exists acc, r1, w1, new. split; [reflexivity|]. split; [exact L|]. split; [exact N|]. split; [exact G|].
    split; [split; [exact Hi1|rewrite B; exact Ho1]|]. rewrite Hn in *. rewrite B, Hi1, (Z eq_refl). split; [exact E1|reflexivity].
  - rewrite <- B in *. destruct (split_line (r_buf r1)) as [[l s]|] eqn:S.
    + apply split_line_some in S as (l0 & -> & L0 & S). rewrite <- app_assoc in S. cbn in S.
      exists (acc ++ l0 ++ [10%N]), (mkReader (r_ino r1) (r_off r1) s), w1, new.
      split; [reflexivity|]. split; [exact L|]. split; [exact N|]. split; [exact G|].
      split. { split; [exact Hi1|]. cbn. rewrite S in Ho1. rewrite app_length in Ho1. cbn in Ho1. lia. }
      cbn [r_buf r_off r_ino]. rewrite Hi1.
      rewrite S in E1. rewrite <- !app_assoc in E1. cbn in E1. rewrite app_assoc in E1.
      assert (La : line (acc ++ l0)). { intros H. apply in_app_or in H as [H|H]; [exact (Ha H)|exact (L0 H)]. }
      assert (Hr' : Forall line (rest ++ new)) by (apply Forall_app; auto).
      destruct (rest ++ new) as [|l tl]; [destruct (acc ++ l0); discriminate|]. rewrite unlines_cons in E1.
      inversion Hr'; subst. apply line_split_eq in E1 as [<- <-]; auto. rewrite app_assoc. auto.
    + assert (Lb : line (acc ++ r_buf r1)).
      { apply split_line_none in S. intros H. apply in_app_or in H as [H|H]; [exact (Ha H)|exact (S H)]. }
      assert (HL1 : lines_only i w1) by (apply (later_lines i w w1 L HL)).
      destruct (IH (mkReader (r_ino r1) (r_off r1) []) w1 (acc ++ r_buf r1) i (rest ++ new)) as (bs & r' & w' & new' & R & L' & N' & G' & A' & M');
        cbn [r_buf r_off r_ino app]; auto.
      * split; [exact Hi1|cbn; lia].
      * apply Forall_app; auto.
      * rewrite Hi1, <- app_assoc. exact E1.
      * assert (List.length (r_buf r1) > 0) by (rewrite B; cbn; lia). cbn [List.length]. lia.
      * exists bs, r', w', (new ++ new'). split; [exact R|]. split; [eapply later_trans; eassumption|].
        split; [apply Forall_app; auto|]. split; [rewrite G', G, unlines_app, app_assoc; reflexivity|]. split; [exact A'|].
        rewrite app_assoc. exact M'.
Qed.

Definition ans (l : bytes) : outcome := if utf8_ok (l ++ [10%N]) then Text l else Failed.

(** one call, whatever happens to the path *)
Lemma read_line_core f w p i rest : holds f p i w -> lines_only i w -> Forall line rest -> unread f w = unlines rest ->
  exists o f' w' new1 new2, read_line cap utf8_ok f w = (o, f', w') /\ later w w' /\ Forall line new1 /\ Forall line new2 /\
    files w' i = files w i ++ unlines (new1 ++ new2) /\
    match rest ++ new1 with
    | [] => o = Text [] /\ unread f' w' = unlines new2 /\
            ((named w' p = Some i /\ holds f' p i w') \/ (named w' p <> Some i /\ f_reopen f' = true /\ f_path f' = p))
    | l :: tl => o = ans l /\ new2 = [] /\ unread f' w' = unlines tl /\ holds f' p i w'
    end.
Proof.
  intros (Hp & Hid & Hre & Hprev & r & Hr & Hi & Ho) HL Hrest HU. unfold read_line. rewrite Hre, Hr. cbn [fst snd].
  pose proof (later_tick w) as LT. destruct (later_lines i w _ LT HL) as [HL1 (n0 & N0 & G0)].
  set (w0 := tick w) in *. rewrite Hi.
  assert (Sz : List.length (files w i) <= List.length (files w0 i)) by (rewrite G0, app_length; lia).
  replace (List.length (files w0 i) <? f_prev f) with false by (symmetry; apply Nat.ltb_ge; lia).
  unfold unread in HU. rewrite Hr in HU. rewrite Hi in HU.
  assert (U0 : r_unread r w0 = unlines (rest ++ n0)).
  { unfold r_unread. rewrite Hi, G0, skipn_grow by lia. rewrite app_assoc, HU, unlines_app. reflexivity. }
  destruct (read_until_lines (read_until_fuel r w0) r w0 [] i (rest ++ n0)) as (bs & r' & w1 & n1 & R & L1 & N1 & G1 & [A1 A1'] & M1).
  { split; [exact Hi|lia]. } { exact HL1. } { intros []. } { apply Forall_app; auto. } { exact U0. }
  { unfold read_until_fuel. rewrite Hi. lia. }
  rewrite R. rewrite <- app_assoc in M1.
  destruct (later_lines i w0 w1 L1 HL1) as [HL2 _].
  destruct (rest ++ n0 ++ n1) as [|l tl] eqn:El.
  - destruct M1 as [-> M1]. pose proof (later_tick w1) as LT1. destruct (later_lines i w1 _ LT1 HL2) as [_ (n2 & N2 & G2)].
    exists (Text []), (mkWatcher (f_path f) (Some r') (f_id f) (List.length (files w0 i))
      (if match named (tick w1) (f_path f) with Some i0 => match f_id f with Some j => i0 =? j | None => false end | None => match f_id f with Some _ => false | None => true end end then f_reopen f else true)), (tick w1), (n0 ++ n1), n2.
    split; [reflexivity|]. split; [eapply later_trans; [exact LT|eapply later_trans; [exact L1|exact LT1]]|].
    split; [apply Forall_app; auto|]. split; [exact N2|].
    split; [rewrite G2, G1, G0, !unlines_app, !app_assoc; reflexivity|]. rewrite El. split; [reflexivity|].
    assert (U2 : r_unread r' (tick w1) = unlines n2).
    { unfold r_unread in *. rewrite A1 in *. rewrite G2, skipn_grow by lia. rewrite app_assoc, M1. reflexivity. }
    split; [exact U2|]. rewrite Hp, Hid, Hre. destruct (named (tick w1) p) as [j|] eqn:Nm.
    + destruct (Nat.eqb_spec j i) as [->|Nj].
      * left. split; [reflexivity|]. unfold holds. cbn. repeat split; auto.
        -- rewrite G2, G1, !app_length. lia.
        -- exists r'. split; [reflexivity|]. split; [exact A1|]. rewrite G2, app_length. lia.
      * right. split; [congruence|]. split; reflexivity.
    + right. split; [discriminate|]. split; reflexivity.
  - destruct M1 as [-> M1].
    exists (ans l), (mkWatcher (f_path f) (Some r') (f_id f) (List.length (files w0 i)) (f_reopen f)), w1, (n0 ++ n1), [].
    assert (Ex : exists b t, l ++ [10%N] = b :: t) by (destruct l as [|b t]; cbn; eauto). destruct Ex as (b & t & Ex).
    split. { rewrite Ex. unfold ans. rewrite <- Ex. destruct (utf8_ok (l ++ [10%N])); [|reflexivity]. rewrite pop_newline. reflexivity. }
    split; [eapply later_trans; eassumption|]. split; [apply Forall_app; auto|]. split; [constructor|].
    split; [rewrite app_nil_r, G1, G0, unlines_app, app_assoc; reflexivity|]. rewrite El. split; [reflexivity|]. split; [reflexivity|].
    split; [exact M1|]. unfold holds. cbn. repeat split; auto.
    + rewrite G1, app_length. lia.
    + exists r'. split; [reflexivity|]. split; [exact A1|exact A1'].
Qed.

Lemma read_line_lines f w p i rest : holds f p i w -> stays p i w -> lines_only i w -> Forall line rest -> unread f w = unlines rest ->
  exists o f' w' new1 new2, read_line cap utf8_ok f w = (o, f', w') /\ later w w' /\ Forall line new1 /\ Forall line new2 /\
    files w' i = files w i ++ unlines (new1 ++ new2) /\ holds f' p i w' /\
    match rest ++ new1 with
    | [] => o = Text [] /\ unread f' w' = unlines new2
    | l :: tl => o = ans l /\ new2 = [] /\ unread f' w' = unlines tl
    end.
Proof.
  intros H S HL Hr U. destruct (read_line_core f w p i rest H HL Hr U) as (o & f' & w' & n1 & n2 & R & L & N1 & N2 & G & M).
  exists o, f', w', n1, n2. repeat (split; [assumption|]). destruct (rest ++ n1).
  - destruct M as (-> & M & [[_ Hh]|[Hn _]]); [auto|]. destruct (later_stays p i w w' L S) as [E _]. contradiction.
  - destruct M as (-> & -> & M & Hh). auto.
Qed.

Lemma good_app a b : good utf8_ok (a ++ b) = good utf8_ok a ++ good utf8_ok b.
Proof. unfold good. apply filter_app. Qed.
Lemma texts_ans l : texts [ans l] = good utf8_ok [l].
Proof. unfold ans. cbn. destruct l as [|b l]; destruct (utf8_ok _); reflexivity. Qed.
Lemma texts_cons o os : texts (o :: os) = texts [o] ++ texts os.
Proof. unfold texts. cbn [flat_map]. rewrite app_nil_r. reflexivity. Qed.

Lemma reads_lines n : forall f w p i rest, holds f p i w -> stays p i w -> lines_only i w -> Forall line rest -> unread f w = unlines rest ->
  exists os f' w' done rest' new, reads cap utf8_ok n f w = (os, f', w') /\ later w w' /\ Forall line rest' /\
    files w' i = files w i ++ unlines new /\ rest ++ new = done ++ rest' /\ texts os = good utf8_ok done /\ 
    holds f' p i w' /\ unread f' w' = unlines rest'.
Proof.
  induction n as [|n IH]; intros f w p i rest H S HL Hr U; cbn [reads].
  - exists [], f, w, [], rest, []. rewrite !app_nil_r. repeat (split; [first [reflexivity|assumption|constructor]|]). assumption.
  - destruct (read_line_lines f w p i rest H S HL Hr U) as (o & f1 & w1 & n1 & n2 & R & L & N1 & N2 & G & H1 & M). rewrite R.
    assert (X : exists d r1, Forall line r1 /\ unread f1 w1 = unlines r1 /\ rest ++ n1 ++ n2 = d ++ r1 /\ texts [o] = good utf8_ok d).
    { rewrite app_assoc. destruct (rest ++ n1) as [|l tl] eqn:El.
      - destruct M as (-> & M). exists [], n2. auto.
      - destruct M as (-> & -> & M). exists [l], tl. rewrite app_nil_r. split; [|split; [exact M|split; [reflexivity|apply texts_ans]]].
        assert (F : Forall line (l :: tl)) by (rewrite <- El; apply Forall_app; auto). inversion F; assumption. }
    destruct X as (d & r1 & Fr1 & U1 & E1 & T1).
    destruct (IH f1 w1 p i r1 H1 (later_stays _ _ _ _ L S) (proj1 (later_lines i _ _ L HL)) Fr1 U1)
      as (os & f' & w' & done & rest' & new & R' & L' & F' & G' & E' & T' & H' & U').
    rewrite R'. exists (o :: os), f', w', (d ++ done), rest', ((n1 ++ n2) ++ new).
    split; [reflexivity|]. split; [eapply later_trans; eassumption|]. split; [exact F'|].
    split; [rewrite G', G, !unlines_app, !app_assoc; reflexivity|].
    split; [rewrite app_assoc, E1, <- app_assoc, E', app_assoc; reflexivity|].
    split; [rewrite texts_cons, T1, T', good_app; reflexivity|]. auto.
Qed.

(** with nothing more to come, each call takes the next line *)
Lemma reads_quiet n : forall f w p i rest, sched w = [] -> holds f p i w -> named w p = Some i -> Forall line rest -> unread f w = unlines rest ->
  exists f', reads cap utf8_ok n f w = (answers utf8_ok (firstn n rest) ++ repeat (Text []) (n - List.length rest), f', w) /\
    holds f' p i w /\ unread f' w = unlines (skipn n rest).
Proof.
  induction n as [|n IH]; intros f w p i rest Q H Nm Hr U.
  - exists f. cbn. auto.
  - assert (HL : lines_only i w) by (unfold lines_only, coming; rewrite Q; constructor).
    assert (S : stays p i w) by (split; [exact Nm|unfold coming; rewrite Q; constructor]).
    destruct (read_line_lines f w p i rest H S HL Hr U) as (o & f1 & w1 & n1 & n2 & R & L & N1 & N2 & G & H1 & M).
    apply (sched_nil_later w w1 Q) in L. subst w1.
    assert (Z : n1 ++ n2 = []).
    { apply unlines_nil. rewrite <- (app_nil_r (files w i)) in G at 1. apply app_inv_head in G. auto. }
    apply app_eq_nil in Z as [-> ->]. rewrite app_nil_r in M. cbn [reads]. rewrite R. destruct rest as [|l tl].
    + destruct M as (-> & M). destruct (IH f1 w p i [] Q H1 Nm Hr M) as (f' & E & H' & U'). rewrite E. exists f'.
      split; [|rewrite skipn_nil in *; auto]. rewrite !firstn_nil. cbn. rewrite Nat.sub_0_r. reflexivity.
    + destruct M as (-> & _ & M). inversion Hr; subst. destruct (IH f1 w p i tl Q H1 Nm ltac:(assumption) M) as (f' & E & H' & U').
      rewrite E. exists f'. split; [reflexivity|]. auto.
Qed.

(** ** The loop over a file *)
Lemma open_later f w f' w' : open_at_start f w = (f', w') -> later w w' /\ f_path f' = f_path f.
Proof.
  unfold open_at_start. destruct (named (tick w) (f_path f)); intros [= <- <-]; (split; [|reflexivity]).
  - eapply later_trans; apply later_tick.
  - apply later_tick.
Qed.
Lemma read_line_later f w o f' w' : read_line cap utf8_ok f w = (o, f', w') -> later w w'.
Proof.
  unfold read_line.
  assert (A : exists f1 w1, (if f_reopen f then open_at_start f w else (f, w)) = (f1, w1) /\ later w w1).
  { destruct (f_reopen f).
    - destruct (open_at_start f w) as [f1 w1] eqn:E. exists f1, w1. split; [reflexivity|]. apply (open_later f w f1 w1 E).
    - exists f, w. split; [reflexivity|constructor]. }
  destruct A as (f1 & w1 & -> & L1). destruct (f_reader f1) as [r|].
  - set (r0 := if _ <? _ then _ else _). destruct (read_until _ _ _ _ _) as [[bs r'] w2] eqn:R. apply read_until_later in R as [L2 _].
    assert (L : later w w2) by (eapply later_trans; [exact L1|eapply later_trans; [apply later_tick|exact L2]]).
    destruct bs as [|b bs].
    + intros [= _ _ <-]. constructor. exact L.
    + destruct (utf8_ok _); intros [= _ _ <-]; exact L.
  - destruct (open_at_start f1 w1) as [f2 w2] eqn:E. intros [= _ _ <-]. eapply later_trans; [exact L1|]. apply (open_later f1 w1 f2 w2 E).
Qed.
Lemma drain_later fuel max : forall sofar f w ls n f' w', drain cap utf8_ok fuel max sofar f w = (ls, n, f', w') -> later w w'.
Proof.
  induction fuel as [|fuel IH]; intros sofar f w ls n f' w' H; cbn [drain] in H; [injection H as _ _ _ <-; constructor|].
  destruct (read_line cap utf8_ok f w) as [[o f1] w1] eqn:R. apply read_line_later in R.
  destruct o as [[|b bs]|]; try (injection H as _ _ _ <-; exact R).
  destruct (max <? _); [injection H as _ _ _ <-; exact R|].
  destruct (drain _ _ fuel _ _ _ _) as [[[ls' n'] f2] w2] eqn:D. injection H as _ _ _ <-. eapply later_trans; [exact R|]. eapply IH; eassumption.
Qed.
Lemma watch_later p w f w' : watch p w = (f, w') -> later w w'.
Proof.
  unfold watch. destruct (named (tick w) p); intros [= _ <-]; [eapply later_trans; apply later_tick|apply later_tick].
Qed.
Lemma glob_later found : forall m w m' w', glob_poll found m w = (m', w') -> later w w'.
Proof.
  induction found as [|p r IH]; intros m w m' w' H; cbn in H; [injection H as _ <-; constructor|].
  destruct (watch p w) as [f w1] eqn:W. apply watch_later in W. eapply later_trans; [exact W|]. eapply IH; eassumption.
Qed.
Lemma line_later max : forall m alt w ls n alt' w', line_poll cap utf8_ok max m alt w = (ls, n, alt', w') -> later w w'.
Proof.
  induction m as [|[p f] r IH]; intros alt w ls n alt' w' H; cbn [line_poll] in H; [injection H as _ _ _ <-; constructor|].
  unfold poll_file in H. destruct (drain _ _ _ _ _ f w) as [[[l1 n1] f1] w1] eqn:D. apply drain_later in D.
  destruct (line_poll _ _ max r _ w1) as [[[l2 n2] a2] w2] eqn:LP. injection H as _ _ _ <-. eapply later_trans; [exact D|]. eapply IH; eassumption.
Qed.

Lemma holds_later f p i w w' rest : later w w' -> lines_only i w -> holds f p i w -> Forall line rest -> unread f w = unlines rest ->
  exists new, Forall line new /\ files w' i = files w i ++ unlines new /\ holds f p i w' /\ unread f w' = unlines (rest ++ new).
Proof.
  clear Hcap.  intros L HL (Hp & Hid & Hre & Hprev & r & Hr & Hi & Ho) F U. destruct (later_lines i w w' L HL) as [_ (new & N & G)]. exists new.
  split; [exact N|]. split; [exact G|]. split.
  - unfold holds. repeat split; auto; [rewrite G, app_length; lia|]. exists r. repeat split; auto; [lia|]. rewrite G, app_length. lia.
  - unfold unread in *. rewrite Hr in *. rewrite Hi in *. rewrite G, skipn_grow by lia. rewrite app_assoc, U, unlines_app. reflexivity.
Qed.

Lemma drain_lines fuel max : forall sofar f w p i rest, holds f p i w -> stays p i w -> lines_only i w -> Forall line rest -> unread f w = unlines rest ->
  exists ls n f' w' done rest' new, drain cap utf8_ok fuel max sofar f w = (ls, n, f', w') /\ later w w' /\ Forall line rest' /\
    files w' i = files w i ++ unlines new /\ rest ++ new = done ++ rest' /\ ls = good utf8_ok done /\
    holds f' p i w' /\ unread f' w' = unlines rest' /\ (rest <> [] -> 0 < fuel -> done <> []).
Proof.
  induction fuel as [|fuel IH]; intros sofar f w p i rest H S HL Hr U; cbn [drain].
  - exists [], sofar, f, w, [], rest, []. rewrite !app_nil_r. repeat (split; [first [reflexivity|assumption|constructor]|]). intros _ Hf. lia.
  - destruct (read_line_lines f w p i rest H S HL Hr U) as (o & f1 & w1 & n1 & n2 & R & L & N1 & N2 & G & H1 & M). rewrite R.
    destruct (rest ++ n1) as [|l tl] eqn:El.
    + destruct M as (-> & M). apply app_eq_nil in El as [-> ->]. exists [], sofar, f1, w1, [], n2, n2. cbn [app] in *.
      repeat (split; [first [reflexivity|assumption|constructor]|]). intros C. contradiction.
    + destruct M as (-> & -> & M). rewrite app_nil_r in G. 
      assert (F : Forall line (l :: tl)) by (rewrite <- El; apply Forall_app; auto). inversion F as [|? ? Fl Ftl]; subst.
      assert (Stop : good utf8_ok [l] = [] -> exists ls n f' w' done rest' new, ([] : list bytes, sofar, f1, w1) = (ls, n, f', w') /\ later w w' /\ Forall line rest' /\
        files w' i = files w i ++ unlines new /\ rest ++ new = done ++ rest' /\ ls = good utf8_ok done /\
        holds f' p i w' /\ unread f' w' = unlines rest' /\ (rest <> [] -> 0 < Datatypes.S fuel -> done <> [])).
      { intros Hg. exists [], sofar, f1, w1, [l], tl, n1. rewrite Hg. repeat (split; [first [reflexivity|assumption|constructor]|]). discriminate. }
      unfold ans. destruct (utf8_ok (l ++ [10%N])) eqn:Ut.
      * destruct l as [|b bs]; [apply Stop; reflexivity|].
        assert (Hg : good utf8_ok [b :: bs] = [b :: bs]) by (unfold good; cbn; cbn in Ut; rewrite Ut; reflexivity).
        destruct (max <? sofar + List.length (b :: bs)).
        -- exists [b :: bs], (sofar + List.length (b :: bs)), f1, w1, [b :: bs], tl, n1. rewrite Hg.
           repeat (split; [first [reflexivity|assumption|constructor]|]). discriminate.
        -- destruct (IH (sofar + List.length (b :: bs)) f1 w1 p i tl H1 (later_stays _ _ _ _ L S) (proj1 (later_lines i _ _ L HL)) Ftl M)
             as (ls & n & f' & w' & done & rest' & new & R' & L' & F' & G' & E' & T' & H' & U' & _).
           rewrite R'. exists ((b :: bs) :: ls), n, f', w', ((b :: bs) :: done), rest', (n1 ++ new).
           split; [reflexivity|]. split; [eapply later_trans; eassumption|]. split; [exact F'|].
           split; [rewrite G', G, !unlines_app, !app_assoc; reflexivity|].
           split; [rewrite app_assoc, El; cbn; rewrite E'; reflexivity|].
           split; [rewrite T'; change ((b :: bs) :: done) with ([b :: bs] ++ done); rewrite good_app, Hg; reflexivity|].
           split; [exact H'|]. split; [exact U'|]. discriminate.
      * apply Stop. unfold good. cbn. rewrite Ut. destruct l; reflexivity.
Qed.

(** ** Rounds *)
Lemma sent_for_app p a b : sent_for p (a ++ b) = sent_for p a ++ sent_for p b.
Proof. unfold sent_for. rewrite filter_app, map_app. reflexivity. Qed.
Lemma sent_for_same p (ls : list bytes) : sent_for p (map (fun l => (p, l)) ls) = ls.
Proof.
  induction ls as [|l ls IH]; [reflexivity|]. unfold sent_for in *. cbn. assert (E : seqb p p = true) by (apply seqb_eq; reflexivity).
  rewrite E. cbn. rewrite IH. reflexivity.
Qed.
Lemma sent_for_other p q (ls : list bytes) : q <> p -> sent_for p (map (fun l => (q, l)) ls) = [].
Proof.
  intros Hn. induction ls as [|l ls IH]; [reflexivity|]. unfold sent_for in *. cbn. destruct (seqb q p) eqn:E; [apply seqb_eq in E; contradiction|exact IH].
Qed.

Lemma line_other p max : forall m alt w ls n alt' w', line_poll cap utf8_ok max m alt w = (ls, n, alt', w') -> ~ In p (map fst m) ->
  sent_for p ls = [] /\ alookup seqb p alt' = alookup seqb p alt.
Proof.
  induction m as [|[q f] r IH]; intros alt w ls n alt' w' H Hp; cbn [line_poll] in H; [injection H as <- _ <- _; auto|].
  destruct (poll_file _ _ max f w) as [[[l1 n1] f1] w1] eqn:D.
  destruct (line_poll _ _ max r _ w1) as [[[l2 n2] a2] w2] eqn:LP. injection H as <- _ <- _.
  cbn in Hp. assert (Hq : q <> p) by tauto. destruct (IH _ _ _ _ _ _ LP) as [E1 E2]; [tauto|].
  rewrite sent_for_app, E1, (sent_for_other p q) by exact Hq. split; [reflexivity|]. rewrite E2.
  destruct (dead f1); [reflexivity|]. apply (alookup_ainsert_ne seqb seqb_eq). exact Hq.
Qed.
Lemma line_keys max : forall m alt w ls n alt' w', line_poll cap utf8_ok max m alt w = (ls, n, alt', w') -> NoDup (map fst alt) -> NoDup (map fst alt').
Proof.
  induction m as [|[q f] r IH]; intros alt w ls n alt' w' H Hp; cbn [line_poll] in H; [injection H as <- _ <- _; auto|].
  destruct (poll_file _ _ max f w) as [[[l1 n1] f1] w1] eqn:D.
  destruct (line_poll _ _ max r _ w1) as [[[l2 n2] a2] w2] eqn:LP. injection H as <- _ <- _. eapply IH; [exact LP|].
  destruct (dead f1); [exact Hp|]. apply (ainsert_NoDup seqb seqb_eq). exact Hp.
Qed.

Lemma line_has p i max : forall m f alt w rest, In (p, f) m -> NoDup (map fst m) ->
  holds f p i w -> stays p i w -> lines_only i w -> Forall line rest -> unread f w = unlines rest ->
  exists ls n alt' w' f' done rest' new, line_poll cap utf8_ok max m alt w = (ls, n, alt', w') /\ later w w' /\
    alookup seqb p alt' = Some f' /\ Forall line rest' /\
    files w' i = files w i ++ unlines new /\ rest ++ new = done ++ rest' /\ sent_for p ls = good utf8_ok done /\
    holds f' p i w' /\ unread f' w' = unlines rest' /\ (rest <> [] -> done <> []).
Proof.
  induction m as [|[q g] r IH]; intros f alt w rest Hin Hnd H S HL Hr U; [contradiction|]. cbn in Hnd. inversion Hnd as [|? ? Hq Hnd']; subst.
  cbn [line_poll]. destruct Hin as [E|Hin].
  - injection E as -> ->. unfold poll_file.
    destruct (drain_lines (Datatypes.S max) max 0 f w p i rest H S HL Hr U) as (l1 & n1 & f1 & w1 & done & r1 & new & D & L & F1 & G & Eq & El & H1 & U1 & Pg).
    rewrite D. replace (dead f1) with false.
    2:{ destruct H1 as (_ & Hid & _). unfold dead. rewrite Hid. destruct (f_reader f1); reflexivity. }
    destruct (line_poll _ _ max r _ w1) as [[[l2 n2] a2] w2] eqn:LP.
    pose proof (line_later _ _ _ _ _ _ _ _ LP) as L2. destruct (line_other p _ _ _ _ _ _ _ _ LP Hq) as [E1 E2].
    destruct (holds_later f1 p i w1 w2 r1 L2 (proj1 (later_lines i _ _ L HL)) H1 F1 U1) as (new2 & N2 & G2 & H2 & U2).
    exists (map (fun l => (p, l)) l1 ++ l2), (n1 + n2), a2, w2, f1, done, (r1 ++ new2), (new ++ new2).
    split; [reflexivity|]. split; [eapply later_trans; eassumption|].
    split; [rewrite E2; apply (alookup_ainsert_eq seqb seqb_eq)|]. split; [apply Forall_app; auto|].
    split; [rewrite G2, G, unlines_app, app_assoc; reflexivity|]. split; [rewrite !app_assoc, Eq; reflexivity|].
    split; [rewrite sent_for_app, E1, sent_for_same, app_nil_r; exact El|]. split; [exact H2|]. split; [exact U2|]. intros Hn. apply Pg; [exact Hn|lia].
  - assert (Hne : q <> p). { intros ->. apply Hq. apply in_map_iff. exists (p, f). auto. }
    destruct (poll_file _ _ max g w) as [[[l1 n1] f1] w1] eqn:D. pose proof (drain_later _ _ _ _ _ _ _ _ _ D) as L.
    destruct (holds_later f p i w w1 rest L HL H Hr U) as (n0 & N0 & G0 & H0 & U0).
    destruct (IH f (if dead f1 then alt else ainsert seqb q f1 alt) w1 (rest ++ n0) Hin Hnd' H0 (later_stays _ _ _ _ L S) (proj1 (later_lines i _ _ L HL)) ltac:(apply Forall_app; auto) U0)
      as (ls & n & alt' & w' & f' & done & rest' & new & LP & L' & Al & F' & G' & E' & T' & H' & U' & Pg).
    rewrite LP. exists (map (fun l => (q, l)) l1 ++ ls), (n1 + n), alt', w', f', done, rest', (n0 ++ new).
    split; [reflexivity|]. split; [eapply later_trans; eassumption|]. split; [exact Al|]. split; [exact F'|].
    split; [rewrite G', G0, unlines_app, app_assoc; reflexivity|]. split; [rewrite app_assoc; exact E'|].
    split; [rewrite sent_for_app, (sent_for_other p q) by exact Hne; exact T'|]. split; [exact H'|]. split; [exact U'|].
    intros Hn. apply Pg. destruct rest; [contradiction|discriminate].
Qed.

Lemma glob_keeps found : forall m w m' w' p f, glob_poll found m w = (m', w') -> alookup seqb p m = Some f -> alookup seqb p m' = Some f.
Proof.
  induction found as [|q r IH]; intros m w m' w' p f H A; cbn in H; [injection H as <- _; exact A|].
  destruct (watch q w) as [g w1]. eapply IH; [exact H|]. destruct (amem seqb q m) eqn:M; [exact A|].
  assert (q <> p). { intros ->. unfold amem in M. rewrite A in M. discriminate. }
  rewrite (alookup_ainsert_ne seqb seqb_eq) by assumption. exact A.
Qed.
Lemma glob_nodup found : forall m w m' w', glob_poll found m w = (m', w') -> NoDup (map fst m) -> NoDup (map fst m').
Proof.
  induction found as [|q r IH]; intros m w m' w' H A; cbn in H; [injection H as <- _; exact A|].
  destruct (watch q w) as [g w1]. eapply IH; [exact H|]. destruct (amem seqb q m) eqn:M; [exact A|]. apply (ainsert_NoDup seqb seqb_eq), A.
Qed.

Lemma round_lines max found order s w p i f rest : some_order order -> NoDup (map fst (s_map s)) -> alookup seqb p (s_map s) = Some f ->
  holds f p i w -> stays p i w -> lines_only i w -> Forall line rest -> unread f w = unlines rest ->
  exists ls wait s' w' f' done rest' new, round cap utf8_ok max found order s w = (ls, wait, s', w') /\ later w w' /\
    NoDup (map fst (s_map s')) /\ alookup seqb p (s_map s') = Some f' /\ Forall line rest' /\
    files w' i = files w i ++ unlines new /\ rest ++ new = done ++ rest' /\ sent_for p ls = good utf8_ok done /\
    holds f' p i w' /\ unread f' w' = unlines rest' /\ (rest <> [] -> done <> []).
Proof.
  intros Hord Hnd Hal H S HL Hr U. unfold round. destruct (glob_poll found (s_map s) w) as [m w0] eqn:Gp.
  pose proof (glob_later _ _ _ _ _ Gp) as L0. pose proof (glob_keeps _ _ _ _ _ _ _ Gp Hal) as Hal0. pose proof (glob_nodup _ _ _ _ _ Gp Hnd) as Hnd0.
  destruct (holds_later f p i w w0 rest L0 HL H Hr U) as (n0 & N0 & G0 & H0 & U0).
  specialize (Hord m).
  destruct (line_has p i max (order m) f [] w0 (rest ++ n0)) as (ls & n & alt' & w' & f' & done & rest' & new & LP & L' & Al & F' & G' & E' & T' & H' & U' & Pg);
    auto.
  - eapply Permutation_in; [exact Hord|]. apply (alookup_In seqb seqb_eq), Hal0.
  - eapply Permutation_NoDup; [apply Permutation_map, Hord|exact Hnd0].
  - eapply later_stays; eassumption.
  - apply (later_lines i _ _ L0 HL).
  - apply Forall_app; auto.
  - rewrite LP. exists ls, (next_cap (s_cap s) n - N.of_nat n)%N, (mkServer alt' (next_cap (s_cap s) n)), w', f', done, rest', (n0 ++ new).
    split; [reflexivity|]. split; [eapply later_trans; eassumption|]. split; [eapply line_keys; [exact LP|constructor]|]. split; [exact Al|]. split; [exact F'|].
    split; [rewrite G', G0, unlines_app, app_assoc; reflexivity|]. split; [rewrite app_assoc; exact E'|]. split; [exact T'|]. split; [exact H'|]. split; [exact U'|].
    intros Hn. apply Pg. destruct rest; [contradiction|discriminate].
Qed.

Lemma rounds_lines max rs : forall s w p i f rest, Forall (fun fo => some_order (snd fo)) rs -> NoDup (map fst (s_map s)) -> alookup seqb p (s_map s) = Some f ->
  holds f p i w -> stays p i w -> lines_only i w -> Forall line rest -> unread f w = unlines rest ->
  exists ls s' w' f' done rest' new, rounds cap utf8_ok max rs s w = (ls, s', w') /\ later w w' /\
    NoDup (map fst (s_map s')) /\ alookup seqb p (s_map s') = Some f' /\ Forall line rest' /\
    files w' i = files w i ++ unlines new /\ rest ++ new = done ++ rest' /\ sent_for p ls = good utf8_ok done /\
    holds f' p i w' /\ unread f' w' = unlines rest' /\ (sched w = [] -> List.length rest <= List.length rs -> rest' = []).
Proof.
  induction rs as [|[found order] rs IH]; intros s w p i f rest Ho Hnd Hal H S HL Hr U; cbn [rounds].
  - exists [], s, w, f, [], rest, []. rewrite !app_nil_r. repeat (split; [first [reflexivity|assumption|constructor]|]).
    cbn. intros _ Hl. destruct rest; [reflexivity|cbn in Hl; lia].
  - inversion Ho as [|? ? Ho1 Ho2]; subst.
    destruct (round_lines max found order s w p i f rest Ho1 Hnd Hal H S HL Hr U)
      as (l1 & wt & s1 & w1 & f1 & d1 & r1 & new1 & R & L & Nd & Al & F1 & G1 & E1 & T1 & H1 & U1 & Pg). rewrite R.
    destruct (IH s1 w1 p i f1 r1 Ho2 Nd Al H1 (later_stays _ _ _ _ L S) (proj1 (later_lines i _ _ L HL)) F1 U1)
      as (l2 & s' & w' & f' & d2 & rest' & new2 & R2 & L2 & Nd2 & Al2 & F2 & G2 & E2 & T2 & H2 & U2 & Q2).
    rewrite R2. exists (l1 ++ l2), s', w', f', (d1 ++ d2), rest', (new1 ++ new2).
    split; [reflexivity|]. split; [eapply later_trans; eassumption|]. split; [exact Nd2|]. split; [exact Al2|]. split; [exact F2|].
    split; [rewrite G2, G1, unlines_app, app_assoc; reflexivity|].
    split; [rewrite app_assoc, E1, <- app_assoc, E2, app_assoc; reflexivity|].
    split; [rewrite sent_for_app, T1, T2, good_app; reflexivity|]. split; [exact H2|]. split; [exact U2|].
    intros Q Hl. assert (Ew : w1 = w) by (apply sched_nil_later; assumption). subst w1.
    assert (Z : new1 = []). { apply unlines_nil. rewrite <- (app_nil_r (files w i)) in G1 at 1. apply app_inv_head in G1. auto. }
    subst new1. rewrite app_nil_r in E1. apply Q2; [exact Q|].
    destruct rest as [|x rest]; [destruct d1; [cbn in E1; subst r1; cbn; lia|discriminate]|].
    assert (d1 <> []) by (apply Pg; discriminate). destruct d1; [contradiction|]. cbn in E1. injection E1 as _ E1.
    rewrite E1 in Hl. cbn in Hl. rewrite app_length in Hl. lia.
Qed.
End Watcher.
