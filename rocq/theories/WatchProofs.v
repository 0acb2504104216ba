(** * Proofs about the project's experiments with the file watcher. *)
From Verif Require Import Base BaseFacts FileModel FileSpec FileProofs WatchSpec.
From Coq Require Import Lia.
Open Scope string_scope. Open Scope list_scope. Open Scope nat_scope.

Lemma plain_is_line s : plain_line s -> line s.
Proof. intros [_ H] Hin. unfold ascii_line in H. rewrite Forall_forall in H. destruct (H _ Hin) as [_ E]. congruence. Qed.
Lemma upd_nth {A} n (x : A) l : n < List.length l -> nth_error (upd n x l) n = Some x.
Proof. revert n. induction l as [|y l IH]; intros [|n] H; cbn in *; try lia; [reflexivity|]. apply IH. lia. Qed.
Lemma upd_other {A} n k (x : A) l : n <> k -> nth_error (upd n x l) k = nth_error l k.
Proof. revert n k. induction l as [|y l IH]; intros [|n] [|k] H; cbn; try reflexivity; [congruence|]. apply IH. congruence. Qed.
Lemma upd_length {A} n (x : A) l : List.length (upd n x l) = List.length l.
Proof. revert n. induction l as [|y l IH]; intros [|n]; cbn; auto. Qed.
Lemma split_unlines l rest : line l -> split_line (l ++ 10%N :: rest) = Some (l ++ [10%N], rest).
Proof.
  induction l as [|b l IH]; intros H; cbn; [reflexivity|]. destruct (N.eqb_spec b 10) as [->|]; [contradiction H; left; reflexivity|].
  rewrite IH; [reflexivity|]. intros Hin. apply H. right. exact Hin.
Qed.
Lemma quiet_tick w : sched w = [] -> tick w = w.
Proof. unfold tick. intros ->. reflexivity. Qed.
Lemma quiet_lines i w : sched w = [] -> lines_only i w.
Proof. intros E. unfold lines_only, coming. rewrite E. constructor. Qed.

Section Proofs.
Variable cap : nat.
Variable utf8_ok : bytes -> bool.
Hypothesis Hcap : 0 < cap.
Hypothesis Hutf : ascii_ok utf8_ok.

Lemma ok_line l : plain_line l -> utf8_ok l = true /\ utf8_ok (l ++ [10%N]) = true.
Proof.
  intros [_ H]. assert (G : Forall (fun c => c < 128)%N l) by (eapply Forall_impl; [|exact H]; cbv beta; tauto).
  split; apply Hutf; [exact G|]. apply Forall_app. split; [exact G|]. constructor; [lia|constructor].
Qed.

(** ** Without truncations *)
(** the reference file [m] holds the bytes [c], of which the lines [rest] are unread *)
Definition ref_ok (m : fw_file) (c : bytes) (rest : list bytes) : Prop :=
  fw_contents m = c /\ fw_prev m <= List.length c /\ fw_idx m <= List.length c /\ skipn (fw_idx m) c = unlines rest /\ fw_avail m = List.length rest /\ Forall plain_line rest.
Lemma ref_none m c : ref_ok m c [] -> exists m', fw_read utf8_ok m = Some (None, m') /\ ref_ok m' c [] /\ (c = [] -> fw_idx m' = 0).
Proof.
  intros (E & Hp & Hi & Hs & Ha & Hf). unfold fw_read. rewrite E. destruct (Nat.eqb_spec (List.length c) 0) as [E0|E0].
  - cbn [List.length] in Ha. rewrite Ha. cbn. eexists. split; [reflexivity|]. destruct c; [|discriminate]. split; [|reflexivity]. repeat split; cbn; auto; lia.
  - cbn [andb]. replace (List.length c <? fw_prev m) with false by (symmetry; apply Nat.ltb_ge; lia). cbn [negb andb].
    assert (fw_idx m = List.length c). { apply (f_equal (@List.length _)) in Hs. rewrite skipn_length in Hs. cbn in Hs. lia. }
    rewrite (proj2 (Nat.eqb_eq _ _) H). exists m. split; [reflexivity|]. split; [repeat split; auto|]. intros ->. contradiction.
Qed.
Lemma ref_some m c l rest : ref_ok m c (l :: rest) -> exists m', fw_read utf8_ok m = Some (Some l, m') /\ ref_ok m' c rest.
Proof.
  intros (E & Hp & Hi & Hs & Ha & Hf). inversion Hf as [|? ? Hl Hf']; subst x l0. unfold fw_read. rewrite E.
  rewrite unlines_cons in Hs. assert (HL := f_equal (@List.length _) Hs). rewrite skipn_length, app_length in HL. cbn [List.length] in HL.
  replace (List.length c =? 0) with false by (symmetry; apply Nat.eqb_neq; lia). cbn [andb].
  replace (List.length c <? fw_prev m) with false by (symmetry; apply Nat.ltb_ge; lia). cbn [negb andb].
  replace (fw_idx m =? List.length c) with false by (symmetry; apply Nat.eqb_neq; lia). rewrite Hs.
  destruct (l ++ 10%N :: unlines rest) as [|b0 r0] eqn:E0; [destruct l; discriminate|]. rewrite <- E0.
  rewrite split_unlines by (apply plain_is_line; exact Hl). rewrite removelast_last. rewrite (proj1 (ok_line l Hl)). cbn [List.length] in Ha. rewrite Ha.
  eexists. split; [destruct l as [|b l]; [destruct Hl as [Hl _]; congruence|reflexivity]|]. repeat split; cbn; auto.
  - rewrite app_length. cbn. lia.
  - rewrite Nat.add_comm, skipn_skipn', Hs, <- E0. replace (l ++ 10%N :: unlines rest) with ((l ++ [10%N]) ++ unlines rest) by (rewrite <- app_assoc; reflexivity).
    rewrite skipn_app, skipn_all, Nat.sub_diag. reflexivity.
Qed.
Lemma ref_write m c rest s : ref_ok m c rest -> plain_line s -> ref_ok (fw_write s m) (c ++ s ++ [10%N]) (rest ++ [s]).
Proof.
  intros (E & Hp & Hi & Hs & Ha & Hf) Hpl. unfold ref_ok, fw_write. cbn. rewrite E, Ha, !app_length. cbn. repeat split; try lia.
  - rewrite skipn_grow by lia. rewrite Hs, unlines_app, unlines_cons. cbn. reflexivity.
  - apply Forall_app. auto.
Qed.
Lemma ref_new : ref_ok fw_new [] [].
Proof. repeat split; cbn; auto; constructor. Qed.

(** the file system of the experiment *)
Definition disk (b : bench) : Prop :=
  sched (be_w b) = [] /\ named (be_w b) log_path = Some (be_cur b) /\ be_cur b < be_next b /\ forall j, be_next b <= j -> files (be_w b) j = [].
Definition level (b : bench) : Prop := disk b /\ exists i m rest h hrest,
  holds (be_f b) log_path i (be_w b) /\ i < be_next b /\ nth_error (be_files b) (be_index b) = Some m /\ ref_ok m (files (be_w b) i) rest /\ unread (be_f b) (be_w b) = unlines rest /\
  nth_error (be_files b) 0 = Some h /\ ref_ok h (files (be_w b) (be_cur b)) hrest /\
  (be_index b = 0 -> i = be_cur b) /\ (be_index b <> 0 -> i <> be_cur b /\ unlines hrest = files (be_w b) (be_cur b)).
(** the watcher is about to open the current file *)
Definition behind (b : bench) : Prop := disk b /\ be_index b = 0 /\ f_reopen (be_f b) = true /\ f_path (be_f b) = log_path /\
  exists h hrest, nth_error (be_files b) 0 = Some h /\ ref_ok h (files (be_w b) (be_cur b)) hrest /\ unlines hrest = files (be_w b) (be_cur b).

Lemma init_level : level bench_init.
Proof.
  split; [repeat split; cbn; auto|]. exists 0, fw_new, [], fw_new, []. cbn. unfold holds. cbn. split; [|split; [lia|]].
  - split; [reflexivity|]. split; [reflexivity|]. split; [reflexivity|]. split; [lia|]. eexists. split; [reflexivity|]. split; [reflexivity|]. cbn. lia.
  - split; [reflexivity|]. split; [apply ref_new|]. split; [reflexivity|]. split; [reflexivity|]. split; [apply ref_new|]. split; [reflexivity|]. intros []. reflexivity.
Qed.
Lemma write_level s b : level b -> plain_line s -> level (write_line s b).
Proof.
  intros ((D1 & D2 & D3 & D4) & i & m & rest & h & hrest & Hh & Hi & Hm & Rm & U & H0 & R0 & I1 & I2) Hs. unfold write_line, acted. cbn [fold_left act].
  set (w' := mkWorld _ _ _). assert (Fc : forall j, files w' j = if j =? be_cur b then files (be_w b) (be_cur b) ++ s ++ [10%N] else files (be_w b) j) by (intros j; reflexivity).
  destruct (be_files b) as [|m0 ms] eqn:Ef; [discriminate|]. cbn in H0. injection H0 as ->.
  split. { unfold disk. cbn. split; [exact D1|]. split; [exact D2|]. split; [exact D3|]. intros j Hj. change (files w' j = []). rewrite Fc. destruct (Nat.eqb_spec j (be_cur b)); [lia|]. apply D4. exact Hj. }
  destruct (Nat.eq_dec (be_index b) 0) as [E0|E0].
  - specialize (I1 E0). subst i. rewrite E0 in *. cbn in Hm. injection Hm as ->. exists (be_cur b), (fw_write s m), (rest ++ [s]), (fw_write s m), (rest ++ [s]). cbn [be_f be_w be_next be_files be_index be_cur nth_error].
    assert (Fcur : files w' (be_cur b) = files (be_w b) (be_cur b) ++ s ++ [10%N]) by (rewrite Fc, Nat.eqb_refl; reflexivity).
    destruct Hh as (P1 & P2 & P3 & P4 & r & P5 & P6 & P7). split; [|split; [exact D3|]].
    + split; [exact P1|]. split; [exact P2|]. split; [exact P3|]. rewrite Fcur, app_length. split; [lia|]. exists r. split; [exact P5|]. split; [exact P6|]. lia.
    + rewrite Fcur. split; [reflexivity|]. split; [apply ref_write; assumption|]. split.
      { unfold unread in *. rewrite P5 in *. rewrite P6 in *. rewrite Fcur, skipn_grow by lia. rewrite app_assoc, U, unlines_app, unlines_cons. reflexivity. }
      split; [reflexivity|]. split; [apply ref_write; assumption|]. split; [reflexivity|]. intros []. reflexivity.
  - destruct (I2 E0) as (N1 & N2). destruct (be_index b) as [|k] eqn:Ek; [congruence|]. cbn [nth_error] in Hm.
    assert (Fi : files w' i = files (be_w b) i) by (rewrite Fc; destruct (Nat.eqb_spec i (be_cur b)); [congruence|reflexivity]).
    assert (Fcur : files w' (be_cur b) = files (be_w b) (be_cur b) ++ s ++ [10%N]) by (rewrite Fc, Nat.eqb_refl; reflexivity).
    exists i, m, rest, (fw_write s h), (hrest ++ [s]). cbn [be_f be_w be_next be_files be_index be_cur nth_error].
    destruct Hh as (P1 & P2 & P3 & P4 & r & P5 & P6 & P7). split; [|split; [exact Hi|]].
    + split; [exact P1|]. split; [exact P2|]. split; [exact P3|]. rewrite Fi. split; [exact P4|]. exists r. auto.
    + rewrite Fi, Fcur. split; [exact Hm|]. split; [exact Rm|]. split; [unfold unread in *; rewrite P5 in *; rewrite P6 in *; rewrite Fi; exact U|]. split; [reflexivity|]. split; [apply ref_write; assumption|].
      split; [discriminate|]. intros _. split; [exact N1|]. rewrite unlines_app, N2, unlines_cons. reflexivity.
Qed.
Lemma rotate_level b : level b -> level (rotate b).
Proof.
  intros ((D1 & D2 & D3 & D4) & i & m & rest & h & hrest & Hh & Hi & Hm & Rm & U & H0 & R0 & I1 & I2). unfold rotate, acted. cbn [fold_left act names files sched].
  set (w' := mkWorld _ _ _). split.
  { split; [exact D1|]. split; [apply (alookup_ainsert_eq seqb seqb_eq)|]. cbn [be_cur be_next be_w]. split; [lia|]. intros j Hj. apply D4. lia. }
  exists i, m, rest, fw_new, []. cbn [be_f be_w be_next be_files be_index be_cur]. rewrite (Nat.add_1_r (be_index b)). cbn [nth_error].
  assert (En : files w' (be_next b) = []) by (apply D4; lia). change (files w' i) with (files (be_w b) i). rewrite En.
  split; [exact Hh|]. split; [lia|]. split; [exact Hm|]. split; [exact Rm|]. split; [exact U|]. split; [reflexivity|]. split; [apply ref_new|]. split; [discriminate|]. intros _. split; [lia|reflexivity].
Qed.

(** one call of read_line on an undisturbed file system *)
Lemma read_line_quiet f w i rest : sched w = [] -> holds f log_path i w -> Forall plain_line rest -> unread f w = unlines rest ->
  exists f', match rest with
  | [] => read_line cap utf8_ok f w = (Text [], f', w) /\ unread f' w = [] /\
          ((named w log_path = Some i /\ holds f' log_path i w) \/ (named w log_path <> Some i /\ f_reopen f' = true /\ f_path f' = log_path))
  | l :: tl => read_line cap utf8_ok f w = (Text l, f', w) /\ unread f' w = unlines tl /\ holds f' log_path i w
  end.
Proof.
  intros Hq Hh Hf U. assert (HL : Forall line rest) by (eapply Forall_impl; [|exact Hf]; intros s; apply plain_is_line).
  destruct (read_line_core cap utf8_ok Hcap f w log_path i rest Hh (quiet_lines i w Hq) HL U) as (o & f' & w' & n1 & n2 & R & L & N1 & N2 & G & M).
  apply (sched_nil_later w w' Hq) in L. subst w'. assert (En : unlines (n1 ++ n2) = []). { apply (f_equal (@List.length _)) in G. rewrite app_length in G. destruct (unlines (n1 ++ n2)); [reflexivity|cbn in G; lia]. }
  apply unlines_nil in En. apply app_eq_nil in En as [-> ->]. rewrite app_nil_r in M. exists f'. destruct rest as [|l tl].
  - destruct M as (-> & M1 & M2). auto.
  - destruct M as (-> & _ & M1 & M2). rewrite R. unfold ans. inversion Hf; subst. rewrite (proj2 (ok_line l ltac:(assumption))). auto.
Qed.
Lemma model_none i ms m c : nth_error ms i = Some m -> ref_ok m c [] -> exists m', model_read utf8_ok i ms = Some (None, upd i m' ms) /\ ref_ok m' c [].
Proof. intros E R. destruct (ref_none m c R) as (m' & E' & R' & _). unfold model_read. rewrite E, E'. eauto. Qed.
Lemma model_some i ms m c l rest : nth_error ms i = Some m -> ref_ok m c (l :: rest) -> exists m', model_read utf8_ok i ms = Some (Some l, upd i m' ms) /\ ref_ok m' c rest.
Proof. intros E R. destruct (ref_some m c l rest R) as (m' & E' & R'). unfold model_read. rewrite E, E'. eauto. Qed.
Lemma nth_bound {A} (l : list A) i x : nth_error l i = Some x -> i < List.length l.
Proof. intros E. apply nth_error_Some. congruence. Qed.

(** reading a line, or finding none, in the file held *)
Lemma step_here n b i m rest h hrest : disk b ->
  holds (be_f b) log_path i (be_w b) -> i < be_next b -> nth_error (be_files b) (be_index b) = Some m -> ref_ok m (files (be_w b) i) rest -> unread (be_f b) (be_w b) = unlines rest ->
  nth_error (be_files b) 0 = Some h -> ref_ok h (files (be_w b) (be_cur b)) hrest ->
  (be_index b = 0 -> i = be_cur b) -> (be_index b <> 0 -> i <> be_cur b /\ unlines hrest = files (be_w b) (be_cur b)) ->
  (exists b', read_exact cap utf8_ok (S n) b = Some b' /\ level b') \/
  (exists b', read_exact cap utf8_ok (S n) b = read_exact cap utf8_ok n b' /\ (i = be_cur b /\ level b' /\ be_index b' = 0 \/ i <> be_cur b /\ behind b')).
Proof.
  intros D Hh Hi Hm Rm U H0 R0 I1 I2. assert (D' := D). destruct D' as (D1 & D2 & D3 & D4).
  destruct (read_line_quiet (be_f b) (be_w b) i rest D1 Hh ltac:(apply Rm) U) as (f' & M). cbn [read_exact]. destruct rest as [|l tl].
  - right. destruct M as (-> & U' & M). destruct (model_none _ _ m _ Hm Rm) as (m' & -> & Rm'). eexists. split; [reflexivity|].
    assert (Hb := nth_bound _ _ _ Hm). destruct (Nat.eq_dec i (be_cur b)) as [Ec|Ec]; [left|right]; (split; [exact Ec|]).
    + assert (E0 : be_index b = 0) by (destruct (Nat.eq_dec (be_index b) 0) as [|N]; [assumption|destruct (I2 N); congruence]). rewrite E0 in *.
      destruct M as [(_ & Hh')|(Hn & _)]; [|congruence]. split; [|reflexivity]. split; [exact D|]. subst i. exists (be_cur b), m', [], m', []. cbn [be_f be_w be_next be_files be_index be_cur].
      split; [exact Hh'|]. split; [exact Hi|]. split; [apply upd_nth; exact Hb|]. split; [exact Rm'|]. split; [exact U'|]. split; [apply upd_nth; exact Hb|]. split; [exact Rm'|]. split; [reflexivity|]. intros []. reflexivity.
    + assert (E0 : be_index b <> 0) by (intros E; apply Ec; auto). destruct (I2 E0) as (_ & I2'). destruct M as [(Hn & _)|(_ & M1 & M2)]; [congruence|]. split; [exact D|]. cbn [be_f be_w be_next be_files be_index be_cur].
      split; [reflexivity|]. split; [exact M1|]. split; [exact M2|]. exists h, hrest. split; [rewrite upd_other by exact E0; exact H0|]. auto.
  - left. destruct M as (-> & U' & Hh'). assert (Hl : plain_line l) by (destruct Rm as (_ & _ & _ & _ & _ & F); inversion F; assumption). destruct l as [|c0 l']; [destruct Hl; congruence|].
    destruct (model_some _ _ m _ _ _ Hm Rm) as (m' & -> & Rm'). destruct (list_eq_dec N.eq_dec (c0 :: l') (c0 :: l')) as [_|]; [|congruence]. eexists. split; [reflexivity|]. split; [exact D|].
    assert (Hb := nth_bound _ _ _ Hm). destruct (Nat.eq_dec (be_index b) 0) as [E0|E0].
    + specialize (I1 E0). subst i. exists (be_cur b), m', tl, m', tl. cbn [be_f be_w be_next be_files be_index be_cur]. rewrite E0 in *.
      split; [exact Hh'|]. split; [exact Hi|]. split; [apply upd_nth; exact Hb|]. split; [exact Rm'|]. split; [exact U'|]. split; [apply upd_nth; exact Hb|]. split; [exact Rm'|]. split; [reflexivity|]. intros []. reflexivity.
    + exists i, m', tl, h, hrest. cbn [be_f be_w be_next be_files be_index be_cur].
      split; [exact Hh'|]. split; [exact Hi|]. split; [apply upd_nth; exact Hb|]. split; [exact Rm'|]. split; [exact U'|]. split; [rewrite upd_other by exact E0; exact H0|]. split; [exact R0|]. split; [intros; congruence|]. exact I2.
Qed.
(** the watcher that has to open the current file *)
Lemma behind_opens n b : behind b -> exists f1 h hrest, holds f1 log_path (be_cur b) (be_w b) /\ unread f1 (be_w b) = unlines hrest /\
  nth_error (be_files b) 0 = Some h /\ ref_ok h (files (be_w b) (be_cur b)) hrest /\
  read_exact cap utf8_ok (S n) b = read_exact cap utf8_ok (S n) (mkBench (be_w b) f1 (be_cur b) (be_next b) (be_files b) (be_index b) (be_writes b) (be_sut b) (be_model b)).
Proof.
  intros ((D1 & D2 & D3 & D4) & E0 & Hre & Hp & h & hrest & H0 & R0 & Hu). exists (fst (open_at_start (be_f b) (be_w b))), h, hrest.
  unfold open_at_start. rewrite !(quiet_tick _ D1), Hp, D2. cbn [fst]. split; [|split; [|split; [exact H0|split; [exact R0|]]]].
  - unfold holds. cbn. repeat split; auto. eexists. split; [reflexivity|]. split; [reflexivity|]. cbn. lia.
  - unfold unread. cbn. congruence.
  - cbn [read_exact be_f be_w be_cur be_next be_files be_index be_writes be_sut be_model]. set (f1 := mkWatcher _ _ _ _ _).
    assert (El : read_line cap utf8_ok (be_f b) (be_w b) = read_line cap utf8_ok f1 (be_w b)).
    { unfold read_line. rewrite Hre. unfold open_at_start. rewrite !(quiet_tick _ D1), Hp, D2. reflexivity. }
    rewrite El. reflexivity.
Qed.
Lemma behind_read n b : behind b -> exists b', read_exact cap utf8_ok (S n) b = Some b' /\ level b'.
Proof.
  revert b. assert (C : forall n b, level b -> be_index b = 0 -> exists b', read_exact cap utf8_ok n b = Some b' /\ level b').
  { clear n. induction n as [|n IH]; intros b L E0; [exists b; auto|]. destruct L as (D & i & m & rest & h & hrest & Hh & Hi & Hm & Rm & U & H0 & R0 & I1 & I2).
    destruct (step_here n b i m rest h hrest D Hh Hi Hm Rm U H0 R0 I1 I2) as [H|(b' & E & [(_ & L & E1)|(Hc & _)])]; [exact H|rewrite E; apply IH; assumption|]. exfalso. auto. }
  intros b B. destruct (behind_opens n b B) as (f1 & h & hrest & Hh & U & H0 & R0 & ->). destruct B as (D & E0 & _). set (b1 := mkBench _ _ _ _ _ _ _ _ _).
  assert (L1 : level b1). { split; [exact D|]. exists (be_cur b), h, hrest, h, hrest. unfold b1. cbn [be_f be_w be_next be_files be_index be_cur]. rewrite E0. destruct D as (_ & _ & D3 & _). repeat (split; [assumption|]). split; [reflexivity|]. intros []. reflexivity. }
  apply C; [exact L1|exact E0].
Qed.
Lemma level_read n b : level b -> exists b', read_exact cap utf8_ok (S (S n)) b = Some b' /\ level b'.
Proof.
  intros (D & i & m & rest & h & hrest & Hh & Hi & Hm & Rm & U & H0 & R0 & I1 & I2).
  destruct (step_here (S n) b i m rest h hrest D Hh Hi Hm Rm U H0 R0 I1 I2) as [H|(b' & E & [(_ & L & E1)|(_ & B)])]; [exact H| |rewrite E; apply behind_read; exact B].
  rewrite E. clear - Hcap Hutf L E1. rename b' into b. revert b L E1. generalize (S n). clear n. intros n. induction n as [|n IH]; intros b L E0; [exists b; auto|]. destruct L as (D & i & m & rest & h & hrest & Hh & Hi & Hm & Rm & U & H0 & R0 & I1 & I2).
  destruct (step_here n b i m rest h hrest D Hh Hi Hm Rm U H0 R0 I1 I2) as [H|(b' & E & [(_ & L & E1)|(Hc & _)])]; [exact H|rewrite E; apply IH; assumption|]. exfalso. auto.
Qed.
Lemma no_truncations_ok acts : plain_lines acts -> forall b, level b -> exists b', experiment_no_truncations cap utf8_ok acts b = Some b'.
Proof.
  induction acts as [|a acts IH]; intros Hp b L; cbn [experiment_no_truncations]; [eauto|].
  assert (Hp' : plain_lines acts) by (intros s Hs; apply Hp; right; exact Hs). destruct a; eauto.
  - apply IH; [exact Hp'|]. apply write_level; [exact L|]. apply Hp. left. reflexivity.
  - apply IH; [exact Hp'|]. apply rotate_level. exact L.
  - destruct (level_read 8 b L) as (b' & E & L'). rewrite E. apply IH; assumption.
Qed.

(** ** With truncations *)
Definition nl (bs : bytes) : nat := count_occ N.eq_dec bs 10%N.
Definition ended (bs : bytes) : Prop := bs = [] \/ exists a, bs = a ++ [10%N].
Definition ascii (bs : bytes) : Prop := Forall (fun c => c < 128)%N bs.
Lemma nl_app a b : nl (a ++ b) = nl a + nl b.
Proof. apply count_occ_app. Qed.
Lemma nl_line l : line l -> nl l = 0.
Proof. intros H. unfold nl. apply count_occ_not_In. exact H. Qed.
Lemma nl_newline : nl [10%N] = 1. Proof. reflexivity. Qed.
Lemma nl_skipn n bs : nl (skipn n bs) <= nl bs.
Proof. rewrite <- (firstn_skipn n bs) at 2. rewrite nl_app. lia. Qed.
Lemma nl_skipn_app n a b : nl (skipn n (a ++ b)) <= nl (skipn n a) + nl b.
Proof. rewrite skipn_app, nl_app. pose proof (nl_skipn (n - List.length a) b). lia. Qed.
Lemma ended_tail a b : ended (a ++ b) -> ended b.
Proof.
  intros [E|[c E]]; [left; apply app_eq_nil in E; tauto|]. destruct (list_eq_dec N.eq_dec b []) as [->|N]; [left; reflexivity|]. right.
  destruct (exists_last N) as (b' & x & ->). rewrite app_assoc in E. apply app_inj_tail in E as [_ ->]. eauto.
Qed.
Lemma ended_skipn n bs : ended bs -> ended (skipn n bs).
Proof. intros H. rewrite <- (firstn_skipn n bs) in H. apply ended_tail in H. exact H. Qed.
Lemma ended_last a b : b <> [] -> ended b -> ended (a ++ b).
Proof. intros N [->|[c ->]]; [congruence|]. right. exists (a ++ c). rewrite <- app_assoc. reflexivity. Qed.
Lemma ended_line l : ended l -> line l -> l = [].
Proof. intros [->|[a ->]] H; [reflexivity|]. exfalso. apply H. apply in_or_app. right. left. reflexivity. Qed.
Lemma ascii_app a b : ascii (a ++ b) <-> ascii a /\ ascii b.
Proof. apply Forall_app. Qed.
Lemma ascii_skipn n bs : ascii bs -> ascii (skipn n bs).
Proof. intros H. rewrite <- (firstn_skipn n bs) in H. apply ascii_app in H. tauto. Qed.
Lemma split_line_app bs c : match split_line bs with Some (l, rest) => split_line (bs ++ c) = Some (l, rest ++ c) | None => split_line (bs ++ c) = match split_line c with Some (l, rest) => Some (bs ++ l, rest) | None => None end end.
Proof.
  induction bs as [|b bs IH]; cbn; [destruct (split_line c) as [[? ?]|]; reflexivity|]. destruct (N.eqb b 10); [reflexivity|].
  destruct (split_line bs) as [[l rest]|]; rewrite IH; [reflexivity|]. destruct (split_line c) as [[? ?]|]; reflexivity.
Qed.

Lemma read_until_quiet w i : sched w = [] -> ended (files w i) -> ascii (files w i) -> forall fuel r acc, r_ino r = i -> r_off r <= List.length (files w i) ->
  (ended (r_buf r) \/ r_off r < List.length (files w i)) -> ascii (r_buf r) ->
  List.length (r_buf r ++ skipn (r_off r) (files w i)) < fuel ->
  exists x r', read_until cap fuel r w acc = (acc ++ x, r', w) /\ r_ino r' = i /\ r_off r' <= List.length (files w i) /\
    (ended (r_buf r') \/ r_off r' < List.length (files w i)) /\ ascii (r_buf r') /\
    match split_line (r_buf r ++ skipn (r_off r) (files w i)) with
    | Some (l, rest) => x = l /\ r_buf r' ++ skipn (r_off r') (files w i) = rest
    | None => x = r_buf r ++ skipn (r_off r) (files w i) /\ r_buf r' = [] /\ skipn (r_off r') (files w i) = []
    end.
Proof.
  intros Hq He Ha. induction fuel as [|fuel IH]; intros r acc Hi Ho Ht Hb Hf; [lia|].
  assert (F : exists r1, fill_buf cap r w = (r1, w) /\ r_ino r1 = i /\ r_off r1 <= List.length (files w i) /\ (ended (r_buf r1) \/ r_off r1 < List.length (files w i)) /\ ascii (r_buf r1) /\
    r_buf r1 ++ skipn (r_off r1) (files w i) = r_buf r ++ skipn (r_off r) (files w i) /\ (r_buf r1 = [] -> skipn (r_off r1) (files w i) = [])).
  { unfold fill_buf. destruct (r_buf r) as [|b0 bb] eqn:Eb.
    - rewrite (quiet_tick _ Hq), Hi. set (bs := firstn cap (skipn (r_off r) (files w i))). eexists. split; [reflexivity|]. cbn [r_ino r_off r_buf].
      assert (Es : skipn (r_off r + List.length bs) (files w i) = skipn cap (skipn (r_off r) (files w i))) by (rewrite Nat.add_comm, skipn_skipn'; apply firstn_skipn_len).
      assert (Ej : bs ++ skipn (r_off r + List.length bs) (files w i) = skipn (r_off r) (files w i)) by (rewrite Es; apply firstn_skipn).
      assert (El := f_equal (@List.length _) Ej). rewrite app_length, !skipn_length in El.
      split; [reflexivity|]. split; [lia|]. split; [|split; [|split]].
      + destruct (Nat.lt_ge_cases (r_off r + List.length bs) (List.length (files w i))) as [L|L]; [right; exact L|left]. rewrite (skipn_all2 _ L), app_nil_r in Ej. rewrite Ej. apply ended_skipn. exact He.
      + assert (A := ascii_skipn (r_off r) _ Ha). rewrite <- Ej in A. apply ascii_app in A. tauto.
      + rewrite Ej. reflexivity.
      + intros E. rewrite E in Ej. cbn in Ej. rewrite E. cbn [List.length]. rewrite Nat.add_0_r. unfold bs in E. destruct (skipn (r_off r) (files w i)); [reflexivity|]. destruct cap; [lia|discriminate].
    - eexists. split; [reflexivity|]. rewrite Eb. repeat (split; [auto|]). discriminate. }
  destruct F as (r1 & Ef & Hi1 & Ho1 & Ht1 & Hb1 & Ej & Hn). rewrite <- Ej in Hf |- *. cbn [read_until]. rewrite Ef. clear Ef.
  assert (Sp := split_line_app (r_buf r1) (skipn (r_off r1) (files w i))).
  destruct (r_buf r1) as [|b0 bb] eqn:Eb.
  - rewrite (Hn eq_refl). exists [], r1. rewrite app_nil_r, Eb. cbn. split; [reflexivity|]. repeat (split; [auto|]). auto.
  - rewrite <- Eb in *. destruct (split_line (r_buf r1)) as [[l rest]|] eqn:Es.
    + rewrite Sp. destruct (split_line_some _ _ _ Es) as (l0 & _ & _ & E1). exists l, (mkReader (r_ino r1) (r_off r1) rest). cbn [r_ino r_off r_buf]. split; [reflexivity|]. split; [exact Hi1|]. split; [exact Ho1|].
      rewrite E1 in Ht1, Hb1. apply ascii_app in Hb1. split; [|tauto]. destruct Ht1 as [Ht1|]; [left|right; assumption]. apply ended_tail in Ht1. exact Ht1.
    + destruct (IH (mkReader (r_ino r1) (r_off r1) []) (acc ++ r_buf r1)) as (x & r' & E & P1 & P2 & P3 & P4 & P5); cbn [r_ino r_off r_buf]; auto; [left; left; reflexivity|constructor| |].
      { rewrite app_length in Hf. rewrite Eb in Hf. cbn in Hf. cbn. lia. }
      rewrite E. exists (r_buf r1 ++ x), r'. rewrite app_assoc. split; [reflexivity|]. repeat (split; [assumption|]). cbn [r_buf r_off app] in P5. rewrite Sp.
      destruct (split_line (skipn (r_off r1) (files w i))) as [[l rest]|]; destruct P5 as (-> & P5); auto.
Qed.

(** what the watcher may still return is bounded by what was written *)
Definition bounded (w : world) (f : watcher) (cur next writes sut : nat) : Prop :=
  (sched w = [] /\ named w log_path = Some cur /\ cur < next /\ (forall j, next <= j -> files w j = [])) /\
  (forall j, ended (files w j) /\ ascii (files w j)) /\ f_path f = log_path /\
  exists i r, f_reader f = Some r /\ r_ino r = i /\ f_id f = Some i /\ i < next /\ r_off r <= f_prev f /\ ascii (r_buf r) /\
    (ended (r_buf r) \/ r_off r < f_prev f) /\
    (let extra := if i =? cur then 0 else nl (files w cur) in
     sut + nl (r_buf r) + nl (skipn (r_off r) (files w i)) + extra <= writes /\
     (f_prev f <= List.length (files w i) \/ sut + nl (files w i) + extra <= writes)) /\
    (f_reopen f = true -> i <> cur).
Lemma bounded_init : bounded (be_w bench_init) (be_f bench_init) (be_cur bench_init) (be_next bench_init) (be_writes bench_init) (be_sut bench_init).
Proof.
  cbn. split; [cbn; auto|]. cbn. split; [intros j; split; [left; reflexivity|constructor]|]. split; [reflexivity|]. exists 0, (mkReader 0 0 []). cbn.
  split; [reflexivity|]. split; [reflexivity|]. split; [reflexivity|]. split; [lia|]. split; [lia|]. split; [constructor|]. split; [left; left; reflexivity|]. split; [|discriminate]. split; [lia|]. left. lia.
Qed.
Lemma bounded_open w f cur next writes sut : bounded w f cur next writes sut -> f_reopen f = true ->
  exists f1, read_line cap utf8_ok f w = read_line cap utf8_ok f1 w /\ f_reopen f1 = false /\ bounded w f1 cur next writes sut.
Proof.
  intros ((D1 & D2 & D3 & D4) & Hall & Hp & i & r & P1 & P2 & P3 & P4 & P5 & P6 & P7 & (P8 & P9) & P10) Hr.
  exists (mkWatcher log_path (Some (mkReader cur 0 [])) (Some cur) (List.length (files w cur)) false). split; [|split; [reflexivity|]].
  - unfold read_line. rewrite Hr. unfold open_at_start. rewrite !(quiet_tick _ D1), Hp, D2. reflexivity.
  - specialize (P10 Hr). cbv zeta in P8, P9. rewrite (proj2 (Nat.eqb_neq _ _) P10) in P8, P9. split; [auto|]. split; [exact Hall|]. split; [reflexivity|]. exists cur, (mkReader cur 0 []). cbn [f_reader r_ino f_id r_off f_prev r_buf f_reopen]. rewrite Nat.eqb_refl.
    split; [reflexivity|]. split; [reflexivity|]. split; [reflexivity|]. split; [exact D3|]. split; [lia|]. split; [constructor|]. split; [left; left; reflexivity|]. split; [|discriminate]. cbv zeta. cbn [skipn]. change (nl []) with 0. split; [lia|]. left. lia.
Qed.
Lemma bounded_read w f cur next writes sut : bounded w f cur next writes sut ->
  exists t f', read_line cap utf8_ok f w = (Text t, f', w) /\ bounded w f' cur next writes (match t with [] => sut | _ => sut + 1 end).
Proof.
  intros B. assert (G : exists f1, read_line cap utf8_ok f w = read_line cap utf8_ok f1 w /\ f_reopen f1 = false /\ bounded w f1 cur next writes sut).
  { destruct (f_reopen f) eqn:Er; [apply bounded_open with (1 := B); exact Er|exists f; auto]. }
  destruct G as (f1 & -> & Hr & B1). clear B f. rename f1 into f. destruct B1 as ((D1 & D2 & D3 & D4) & Hall & Hp & i & r & P1 & P2 & P3 & P4 & P5 & P6 & P7 & (P8 & P9) & P10).
  unfold read_line. rewrite Hr, P1, !(quiet_tick _ D1), P2. set (size := List.length (files w i)). set (r1 := if size <? f_prev f then mkReader i 0 [] else r).
  set (extra := if i =? cur then 0 else nl (files w cur)) in *.
  assert (H1 : r_ino r1 = i /\ r_off r1 <= size /\ (ended (r_buf r1) \/ r_off r1 < size) /\ ascii (r_buf r1) /\ sut + nl (r_buf r1 ++ skipn (r_off r1) (files w i)) + extra <= writes).
  { unfold r1. rewrite nl_app. destruct (Nat.ltb_spec size (f_prev f)) as [L|L]; cbn [r_ino r_off r_buf].
    - split; [reflexivity|]. split; [lia|]. split; [left; left; reflexivity|]. split; [constructor|]. cbn [skipn]. change (nl []) with 0. unfold size in L. cbv zeta in P9. destruct P9; lia.
    - split; [exact P2|]. split; [lia|]. split; [destruct P7; [left; assumption|right; lia]|]. split; [exact P6|]. lia. }
  destruct H1 as (I1 & I2 & I3 & I4 & I5). destruct (Hall i) as (He & Ha).
  destruct (read_until_quiet w i D1 He Ha (read_until_fuel r1 w) r1 [] I1 I2 I3 I4) as (x & r' & -> & Q1 & Q2 & Q3 & Q4 & Q5).
  { unfold read_until_fuel. rewrite app_length, I1. lia. }
  cbn [app]. set (u := r_buf r1 ++ skipn (r_off r1) (files w i)) in *.
  assert (Hu : ended u /\ ascii u).
  { split; [|apply ascii_app; split; [exact I4|apply ascii_skipn; exact Ha]]. unfold u. destruct (Nat.lt_ge_cases (r_off r1) size) as [L|L].
    - apply ended_last; [|apply ended_skipn; exact He]. intros E. apply (f_equal (@List.length _)) in E. rewrite skipn_length in E. cbn in E. unfold size in L. lia.
    - rewrite (skipn_all2 _ L), app_nil_r. destruct I3 as [|]; [assumption|lia]. }
  destruct (split_line u) as [[l rest]|] eqn:Es.
  - destruct Q5 as (-> & Er). destruct (split_line_some _ _ _ Es) as (l0 & -> & Hl & Eu). rewrite Eu in Hu, I5. destruct Hu as (_ & Hu). apply ascii_app in Hu as (Hu & _).
    destruct (l0 ++ [10%N]) as [|c0 l1] eqn:El; [destruct l0; discriminate|]. rewrite <- El in *. rewrite (Hutf _ Hu), pop_newline. eexists _, _. split; [reflexivity|].
    split; [auto|]. split; [exact Hall|]. split; [exact Hp|]. exists i, r'. cbn [f_reader r_ino f_id r_off f_prev r_buf f_reopen]. fold extra. rewrite !nl_app, nl_newline, (nl_line _ Hl), <- Er, nl_app in I5.
    split; [reflexivity|]. split; [exact Q1|]. split; [exact P3|]. split; [exact P4|]. split; [exact Q2|]. split; [exact Q4|]. split; [exact Q3|]. split; [|exact P10]. cbv zeta. split; [destruct l0; lia|]. left. unfold size. lia.
  - destruct Q5 as (-> & Eb & Er). assert (u = []) as -> by (apply ended_line; [apply Hu|apply split_line_none; exact Es]). rewrite (quiet_tick _ D1). eexists _, _. split; [reflexivity|].
    split; [auto|]. split; [exact Hall|]. split; [exact Hp|]. exists i, r'. cbn [f_reader r_ino f_id r_off f_prev r_buf f_reopen]. fold extra. rewrite Eb, Er in *. cbn in I5 |- *.
    split; [reflexivity|]. split; [exact Q1|]. split; [exact P3|]. split; [exact P4|]. split; [exact Q2|]. split; [constructor|]. split; [left; left; reflexivity|]. split; [split; [lia|]; left; unfold size; lia|].
    rewrite Hp, D2, P3. destruct (Nat.eqb_spec cur i); [rewrite Hr; discriminate|congruence].
Qed.

(** the reference file never panics *)
Definition ref_safe (m : fw_file) : Prop :=
  (ended (fw_contents m) /\ ascii (fw_contents m)) /\ fw_idx m <= fw_prev m /\ (fw_contents m = [] -> fw_avail m = 0) /\
  nl (skipn (fw_idx m) (fw_contents m)) <= fw_avail m /\ (fw_prev m <= List.length (fw_contents m) \/ nl (fw_contents m) <= fw_avail m).
Lemma ref_safe_read m : ref_safe m -> exists a m', fw_read utf8_ok m = Some (a, m') /\ ref_safe m'.
Proof.
  intros S. assert (S' := S). destruct S' as ((He & Ha) & Hi & Hc & Hn & Hp). unfold fw_read. destruct ((List.length (fw_contents m) =? 0) && (fw_avail m =? 0)) eqn:E0.
  { apply andb_true_iff in E0 as (E0 & E1). apply Nat.eqb_eq in E0, E1. eexists _, _. split; [reflexivity|]. unfold ref_safe. cbn. destruct (fw_contents m); [|discriminate]. cbn. rewrite E1. repeat split; auto. }
  set (start := if List.length (fw_contents m) <? fw_prev m then 0 else fw_idx m).
  destruct (negb (List.length (fw_contents m) <? fw_prev m) && (fw_idx m =? List.length (fw_contents m))) eqn:E1; [eexists _, _; split; [reflexivity|exact S]|].
  assert (Hs : nl (skipn start (fw_contents m)) <= fw_avail m /\ start < List.length (fw_contents m)).
  { unfold start. destruct (Nat.ltb_spec (List.length (fw_contents m)) (fw_prev m)) as [L|L]; cbn [negb andb] in E1.
    - destruct Hp; [lia|]. split; [assumption|]. destruct (fw_contents m); [|cbn; lia]. rewrite (Hc Logic.eq_refl) in E0. discriminate.
    - apply Nat.eqb_neq in E1. split; [exact Hn|]. lia. }
  destruct Hs as (Hs & Hb). destruct (skipn start (fw_contents m)) as [|b0 rr] eqn:Ek.
  { exfalso. apply (f_equal (@List.length _)) in Ek. rewrite skipn_length in Ek. cbn in Ek. lia. }
  rewrite <- Ek in *. destruct (split_line (skipn start (fw_contents m))) as [[l rest]|] eqn:Es.
  - destruct (split_line_some _ _ _ Es) as (l0 & -> & Hl & E). rewrite removelast_last. assert (Al : ascii l0) by (assert (A := ascii_skipn start _ Ha); rewrite E in A; apply ascii_app in A as (A & _); apply ascii_app in A; tauto).
    rewrite (Hutf _ Al). assert (En := f_equal nl E). rewrite !nl_app, nl_newline, (nl_line _ Hl) in En. destruct (fw_avail m) as [|k] eqn:Ea; [lia|].
    assert (Ls := f_equal (@List.length _) E). rewrite skipn_length, app_length in Ls.
    eexists _, _. split; [reflexivity|]. split; [split; assumption|]. cbn [fw_contents fw_idx fw_prev fw_avail]. split; [lia|]. split; [intros E2; rewrite E2 in Hb; cbn in Hb; lia|]. split; [|left; lia].
    rewrite Nat.add_comm, skipn_skipn', E, skipn_app, skipn_all, Nat.sub_diag. cbn [skipn app]. lia.
  - apply split_line_none in Es. apply ended_line in Es; [|apply ended_skipn; exact He]. rewrite Es in Ek. discriminate.
Qed.
Lemma ended_write c s : ended (c ++ s ++ [10%N]).
Proof. right. exists (c ++ s). rewrite <- app_assoc. reflexivity. Qed.
Lemma ascii_line_nl s : ascii_line s -> nl s = 0 /\ ascii s.
Proof.
  intros H. split; [|eapply Forall_impl; [|exact H]; cbv beta; tauto]. apply nl_line. intros Hin. unfold ascii_line in H. rewrite Forall_forall in H. destruct (H _ Hin) as [_ E]. congruence.
Qed.
Lemma ref_safe_write m s : ref_safe m -> ascii_line s -> ref_safe (fw_write s m).
Proof.
  intros ((He & Ha) & Hi & Hc & Hn & Hp) Hs. destruct (ascii_line_nl s Hs) as (Hz & Hs'). unfold ref_safe, fw_write. cbn [fw_contents fw_idx fw_prev fw_avail].
  split; [split; [apply ended_write|]|]. { apply ascii_app. split; [exact Ha|]. apply ascii_app. split; [exact Hs'|]. constructor; [lia|constructor]. }
  split; [exact Hi|]. split; [intros E; apply app_eq_nil in E as (_ & E); apply app_eq_nil in E as (_ & E); discriminate|].
  assert (E1 : nl (s ++ [10%N]) = 1) by (rewrite nl_app, Hz; reflexivity). split; [pose proof (nl_skipn_app (fw_idx m) (fw_contents m) (s ++ [10%N])); lia|]. rewrite nl_app, E1, app_length. destruct Hp; [left|right]; lia.
Qed.
Lemma ref_safe_truncate m : ref_safe m -> ref_safe (fw_truncate m).
Proof. intros (_ & Hi & _ & _ & _). unfold ref_safe, fw_truncate. cbn. rewrite skipn_nil. repeat split; auto; try (left; reflexivity); try constructor. Qed.
Lemma ref_safe_new : ref_safe fw_new.
Proof. unfold ref_safe. cbn. repeat split; auto; try (left; reflexivity); constructor. Qed.

Definition sound (b : bench) : Prop :=
  bounded (be_w b) (be_f b) (be_cur b) (be_next b) (be_writes b) (be_sut b) /\ Forall ref_safe (be_files b) /\ be_index b < List.length (be_files b) /\ be_model b <= be_sut b.
Lemma sound_bound b : sound b -> be_model b <= be_sut b <= be_writes b.
Proof. intros ((_ & _ & _ & i & r & _ & _ & _ & _ & _ & _ & _ & (A & _) & _) & _ & _ & H). cbv zeta in A. lia. Qed.
Lemma sound_init : sound bench_init.
Proof. split; [apply bounded_init|]. cbn. split; [constructor; [apply ref_safe_new|constructor]|]. lia. Qed.
Lemma Forall_upd {A} (P : A -> Prop) n x l : P x -> Forall P l -> Forall P (upd n x l).
Proof. intros Hx H. revert n. induction H; intros [|n]; cbn; constructor; auto. Qed.
Lemma model_safe i ms : i < List.length ms -> Forall ref_safe ms -> exists a ms', model_read utf8_ok i ms = Some (a, ms') /\ Forall ref_safe ms' /\ List.length ms' = List.length ms.
Proof.
  intros Hi Hf. destruct (nth_error ms i) as [m|] eqn:E; [|apply nth_error_None in E; lia]. assert (Hm : ref_safe m) by (rewrite Forall_forall in Hf; apply Hf; eapply nth_error_In; exact E).
  destruct (ref_safe_read m Hm) as (a & m' & E' & Hm'). unfold model_read. rewrite E, E'. exists a, (upd i m' ms). split; [reflexivity|]. split; [apply Forall_upd; assumption|apply upd_length].
Qed.
Lemma sound_read n : forall b, sound b -> exists b', read_counted cap utf8_ok n b = Some b' /\ sound b'.
Proof.
  induction n as [|n IH]; intros b S; cbn [read_counted]; [eauto|]. destruct S as (B & F & I & M). destruct (bounded_read _ _ _ _ _ _ B) as (t & f' & -> & B'). destruct t as [|c0 t].
  - apply IH. split; [exact B'|]. cbn. split; [exact F|]. split; [lia|exact M].
  - destruct (model_safe _ _ I F) as (a & ms & -> & F' & L'). destruct a as [e|].
    + eexists. split; [reflexivity|]. split; [exact B'|]. cbn. split; [exact F'|]. lia.
    + destruct (Nat.eqb_spec (be_index b) 0) as [E0|E0].
      * eexists. split; [reflexivity|]. split; [exact B'|]. cbn. split; [exact F'|]. lia.
      * destruct (model_safe 0 ms ltac:(lia) F') as (a & ms2 & -> & F2 & L2). destruct a as [e|]; (eexists; split; [reflexivity|]; split; [exact B'|]; cbn; split; [exact F2|]; lia).
Qed.
Lemma files_set w i bs j names s : files (mkWorld names (set_file i bs (files w)) s) j = if j =? i then bs else files w j.
Proof. reflexivity. Qed.
Lemma sound_write s b : sound b -> ascii_line s -> sound (write_line s b).
Proof.
  intros (B & F & I & M) Hs. destruct (ascii_line_nl s Hs) as (Hz & Hs'). assert (E1 : nl (s ++ [10%N]) = 1) by (rewrite nl_app, Hz; reflexivity). unfold write_line, acted. cbn [fold_left act].
  split; [|cbn [be_files be_index be_model be_sut]; destruct F as [|m ms Hm F]; [cbn in I; lia|]; split; [constructor; [apply ref_safe_write; assumption|exact F]|auto]].
  cbn [be_w be_f be_cur be_next be_writes be_sut]. destruct B as ((D1 & D2 & D3 & D4) & Hall & Hp & i & r & P1 & P2 & P3 & P4 & P5 & P6 & P7 & (P8 & P9) & P10).
  split; [|split; [|split; [exact Hp|]]].
  - split; [exact D1|]. split; [exact D2|]. split; [exact D3|]. intros j Hj. rewrite files_set. destruct (Nat.eqb_spec j (be_cur b)); [lia|auto].
  - intros j. rewrite files_set. destruct (Nat.eqb j (be_cur b)); [|apply Hall]. split; [apply ended_write|]. apply ascii_app. split; [apply Hall|]. apply ascii_app. split; [exact Hs'|]. constructor; [lia|constructor].
  - exists i, r. repeat (split; [assumption|]). split; [|exact P10]. cbv zeta. rewrite !files_set, Nat.eqb_refl. destruct (Nat.eqb_spec i (be_cur b)) as [->|N].
    + rewrite app_length. pose proof (nl_skipn_app (r_off r) (files (be_w b) (be_cur b)) (s ++ [10%N])). rewrite (nl_app (files _ _)), E1. split; [lia|]. destruct P9; [left|right]; lia.
    + rewrite !(nl_app (files _ (be_cur b))), E1. split; [lia|]. destruct P9; [left|right]; lia.
Qed.
Lemma sound_truncate b : sound b -> sound (truncate b).
Proof.
  intros (B & F & I & M). unfold truncate, acted. cbn [fold_left act].
  split; [|cbn [be_files be_index be_model be_sut]; destruct F as [|m ms Hm F]; [cbn in I; lia|]; split; [constructor; [apply ref_safe_truncate; assumption|exact F]|auto]].
  cbn [be_w be_f be_cur be_next be_writes be_sut]. destruct B as ((D1 & D2 & D3 & D4) & Hall & Hp & i & r & P1 & P2 & P3 & P4 & P5 & P6 & P7 & (P8 & P9) & P10).
  split; [|split; [|split; [exact Hp|]]].
  - split; [exact D1|]. split; [exact D2|]. split; [exact D3|]. intros j Hj. rewrite files_set. destruct (Nat.eqb_spec j (be_cur b)); [lia|auto].
  - intros j. rewrite files_set. destruct (Nat.eqb j (be_cur b)); [|apply Hall]. split; [left; reflexivity|constructor].
  - exists i, r. repeat (split; [assumption|]). split; [|exact P10]. cbv zeta. rewrite !files_set, Nat.eqb_refl. destruct (Nat.eqb_spec i (be_cur b)) as [->|N].
    + rewrite skipn_nil. change (nl []) with 0. split; [|right]; lia.
    + cbn. split; [lia|]. destruct P9; [left|right]; lia.
Qed.
Lemma sound_rotate b : sound b -> sound (rotate b).
Proof.
  intros (B & F & I & M). unfold rotate, acted. cbn [fold_left act names files sched].
  split; [|cbn [be_files be_index be_model be_sut]; split; [constructor; [apply ref_safe_new|exact F]|]; cbn [List.length]; lia].
  cbn [be_w be_f be_cur be_next be_writes be_sut]. destruct B as ((D1 & D2 & D3 & D4) & Hall & Hp & i & r & P1 & P2 & P3 & P4 & P5 & P6 & P7 & (P8 & P9) & P10).
  split; [|split; [exact Hall|split; [exact Hp|]]].
  - split; [exact D1|]. split; [apply (alookup_ainsert_eq seqb seqb_eq)|]. split; [lia|]. intros j Hj. apply D4. lia.
  - exists i, r. cbn [files]. split; [exact P1|]. split; [exact P2|]. split; [exact P3|]. split; [lia|]. repeat (split; [assumption|]). cbv zeta. rewrite (D4 (be_next b)) by lia. destruct (Nat.eqb_spec i (be_next b)) as [E|N]; [lia|].
    cbn. split; [|auto]. split; [lia|]. destruct P9; [left|right]; lia.
Qed.
Lemma experiment_ok acts : (forall s, In (WriteLine s) acts -> ascii_line s) -> forall b, sound b -> exists b', experiment cap utf8_ok acts b = Some b' /\ sound b'.
Proof.
  induction acts as [|a acts IH]; intros Hp b S; cbn [experiment]; [eauto|].
  assert (Hp' : forall s, In (WriteLine s) acts -> ascii_line s) by (intros s Hs; apply Hp; right; exact Hs). destruct a; eauto.
  - apply IH; [exact Hp'|]. apply sound_write; [exact S|]. apply Hp. left. reflexivity.
  - apply IH; [exact Hp'|]. apply sound_rotate. exact S.
  - apply IH; [exact Hp'|]. apply sound_truncate. exact S.
  - destruct (sound_read 10 b S) as (b' & E & S'). rewrite E. apply IH; assumption.
Qed.
End Proofs.
