(** * Proofs about the InfluxDB sink. *)
From Verif Require Import Base BaseFacts TelemetryModel TelemetryProofs CacheModel CacheProofs CacheProps WavefrontModel WavefrontSpec WavefrontProofs InfluxModel InfluxSpec.
From Coq Require Import Lia.
Open Scope string_scope. Open Scope list_scope. Open Scope nat_scope.

Section Proofs.
Context `{Q : QLib}.
Variable show_f : f64 -> string.
Variable show_n : N -> string.
Hypothesis show_same : forall a b, feqb a b = true -> show_f a = show_f b.
Let sz : Z -> string := fun _ => "".

Lemma i_tags_texts l : i_tags l = texts (map (fun kv => ("," ++ fst kv ++ "=" ++ snd kv)%string) l).
Proof. induction l as [|kv l IH]; [reflexivity|]. cbn [map]. rewrite texts_cons, <- IH. cbn. rewrite !sapp_assoc. cbn. reflexivity. Qed.
Lemma i_line_text tags t suffix x :
  texts (map (direct show_f show_n sz) (i_line tags t suffix x))
  = influx_line show_f show_n (tag_iter (t_tags t) tags) (i_time (t_timestamp t)) ((t_name t ++ suffix)%string, x).
Proof.
  unfold i_line, influx_line, head_text. cbn [map direct fst snd]. rewrite i_tags_texts, !texts_cons.
  replace (texts []) with "" by reflexivity. rewrite sapp_nil, !sapp_assoc. reflexivity.
Qed.
Lemma flat_texts {A} (f : A -> list piece) (g : A -> list string) l :
  (forall a, texts (map (direct show_f show_n sz) (f a)) = texts (g a)) ->
  texts (map (direct show_f show_n sz) (flat_map f l)) = texts (flat_map g l).
Proof. intros H. induction l as [|a l IH]; [reflexivity|]. cbn [flat_map]. rewrite map_app, !texts_app, H, IH. reflexivity. Qed.
Lemma map_flat_map' {A B C} (f : B -> C) (g : A -> list B) l : map f (flat_map g l) = flat_map (fun a => map f (g a)) l.
Proof. induction l as [|a l IH]; [reflexivity|]. cbn. rewrite map_app, IH. reflexivity. Qed.
Lemma map_as_flat {A B} (f : A -> B) l : map f l = flat_map (fun a => [f a]) l.
Proof. induction l as [|a l IH]; [reflexivity|]. cbn. rewrite IH. reflexivity. Qed.
Lemma texts_one s : texts [s] = s.
Proof. apply sapp_nil. Qed.
Lemma i_point_text tags t :
  texts (map (direct show_f show_n sz) (i_point show_f tags t))
  = texts (map (influx_line show_f show_n (tag_iter (t_tags t) tags) (i_time (t_timestamp t))) (measurements show_f t)).
Proof.
  unfold i_point, measurements, t_kind, t_sum, t_set, t_bins, t_query. destruct (t_value t) as [x|x|h|c p]; cbn [value_kind value_sum value_set value_bins value_query map].
  - rewrite i_line_text, sapp_nil, texts_one. reflexivity.
  - rewrite i_line_text, sapp_nil, texts_one. reflexivity.
  - rewrite map_map, (map_as_flat (fun x : bound * N => influx_line _ _ _ _ _)). apply flat_texts. intros [b n]. cbn [fst snd]. rewrite i_line_text, texts_one. destruct b; reflexivity.
  - rewrite (map_flat_map' (influx_line _ _ _ _)). apply flat_texts. intros q. destruct (c_query c q) as [[r x]|]; cbn [option_map snd map]; [|reflexivity].
    rewrite i_line_text, texts_one. reflexivity.
Qed.

(** which numbers go through the cache *)
Lemma i_line_nan tags t suffix x : In (PF fnan) (i_line tags t suffix x) <-> x = fnan.
Proof.
  unfold i_line. split.
  - cbn. intros H. repeat (destruct H as [H|H]; [try discriminate; injection H as ->; reflexivity|]). contradiction.
  - intros ->. do 5 right. left. reflexivity.
Qed.
Lemma i_point_nan tags t : In (PF fnan) (i_point show_f tags t) <-> ~ no_nan show_f t.
Proof.
  assert (G : In (PF fnan) (i_point show_f tags t) <-> exists m, In m (measurements show_f t) /\ snd m = fnan).
  { unfold i_point, measurements, t_kind, t_sum, t_set, t_bins, t_query. destruct (t_value t) as [x|x|h|c p]; cbn [value_kind value_sum value_set value_bins value_query].
    - rewrite i_line_nan. split; [intros ->; eexists; split; [left; reflexivity|reflexivity]|]. intros (m & [<-|[]] & E). exact E.
    - rewrite i_line_nan. split; [intros ->; eexists; split; [left; reflexivity|reflexivity]|]. intros (m & [<-|[]] & E). exact E.
    - rewrite in_flat_map. split.
      + intros (b & Hb & H). apply i_line_nan in H. eexists. split; [apply in_map; exact Hb|exact H].
      + intros (m & H & E). apply in_map_iff in H as (b & <- & Hb). exists b. split; [assumption|]. apply i_line_nan. exact E.
    - rewrite in_flat_map. split.
      + intros (q & Hq & H). destruct (c_query c q) as [[r x]|] eqn:Eq; cbn in H; [|contradiction]. apply i_line_nan in H.
        exists ((t_name t ++ "." ++ show_f q)%string, x). split; [|exact H]. apply in_flat_map. exists q. rewrite Eq. split; [exact Hq|left; reflexivity].
      + intros (m & H & E). apply in_flat_map in H as (q & Hq & H). exists q. split; [exact Hq|]. destruct (c_query c q) as [[r x]|]; [|contradiction].
        destruct H as [<-|[]]. cbn. apply i_line_nan. exact E. }
  rewrite G. unfold no_nan. rewrite Forall_forall. split.
  - intros (m & H & E) F. exact (F m H E).
  - intros H. clear G. induction (measurements show_f t) as [|m l IH]; [destruct H; intros ? []|].
    destruct (snd m) eqn:E; try (destruct IH as (m' & H1 & H2); [intros F; apply H; intros y [<-|Hy]; [rewrite E; discriminate|apply F; exact Hy]|exists m'; split; [right|]; assumption]).
    exists m. split; [left; reflexivity|exact E].
Qed.

(** the converse of [emit_direct]: the caches fail on NaN only *)
Lemma emit_total ps : forall c, caches_ok show_f show_n sz c -> ~ In (PF fnan) ps -> emit show_f show_n sz c ps <> None.
Proof.
  clear show_same. induction ps as [|p ps IH]; intros c Hc Hn; [discriminate|]. cbn [emit]. destruct Hc as ((vf & Hf) & (vn & Hn') & (vz & Hz)).
  assert (G : forall c1 (s1 : string), caches_ok show_f show_n sz c1 -> match emit show_f show_n sz c1 ps with Some (c'', s') => Some (c'', (s1 ++ s')%string) | None => None end <> None).
  { intros c1 s1 H1. destruct (emit show_f show_n sz c1 ps) as [[c2 s2]|] eqn:E; [discriminate|]. exfalso. apply (IH c1 H1); [|exact E]. intros H. apply Hn. right. exact H. }
  destruct p as [str|x|n|z].
  - apply G. repeat split; eauto.
  - destruct (cache_get_spec fcmp show_f fcmp_order vf (ca_f c) x Hf) as (c1 & w & E1 & E2 & E3).
    + apply fcmp_fine. intros ->. apply Hn. left. reflexivity.
    + rewrite E1. apply G. repeat split; cbn; eauto.
  - destruct (cache_get_spec ncmp show_n ncmp_order vn (ca_n c) n Hn') as (c1 & w & E1 & E2 & E3); [unfold fine, ncmp; rewrite N.compare_refl; reflexivity|].
    change (fun a b : N => Some (N.compare a b)) with ncmp. rewrite E1. apply G. repeat split; cbn; eauto.
  - destruct (cache_get_spec zcmp sz zcmp_order vz (ca_z c) z Hz) as (c1 & w & E1 & E2 & E3); [unfold fine, zcmp; rewrite Z.compare_refl; reflexivity|].
    change (fun a b : Z => Some (Z.compare a b)) with zcmp. rewrite E1. apply G. repeat split; cbn; eauto.
Qed.

Lemma i_format_text tags ts s : i_format show_f show_n tags ts = Some s -> s = influx_text show_f show_n tags i_time ts.
Proof.
  unfold i_format. change (fun _ : Z => "") with sz. destruct (emit _ _ _ _ _) as [[c' text]|] eqn:Ee; [|discriminate]. intros [= <-].
  destruct (emit_direct show_f show_n sz show_same _ _ _ _ (caches_ok_nil _ _ _) Ee) as (-> & _ & _).
  unfold influx_text. apply flat_texts. intros t. apply i_point_text.
Qed.
Lemma i_format_panics tags ts : i_format show_f show_n tags ts = None <-> ~ Forall (no_nan show_f) ts.
Proof.
  unfold i_format. change (fun _ : Z => "") with sz. rewrite Forall_forall. split.
  - destruct (emit _ _ _ _ _) as [[c' text]|] eqn:Ee; [discriminate|]. intros _ F. revert Ee. apply emit_total; [apply caches_ok_nil|].
    intros H. apply in_flat_map in H as (t & Ht & H). apply i_point_nan in H. exact (H (F t Ht)).
  - destruct (emit _ _ _ _ _) as [[c' text]|] eqn:Ee; [|reflexivity]. intros H. exfalso.
    destruct (emit_direct show_f show_n sz show_same _ _ _ _ (caches_ok_nil _ _ _) Ee) as (_ & _ & H3).
    apply H. intros t Ht. unfold no_nan. apply Forall_forall. intros m Hm E. apply H3. apply in_flat_map. exists t. split; [exact Ht|].
    apply i_point_nan. unfold no_nan. rewrite Forall_forall. intros F. exact (F m Hm E).
Qed.

End Proofs.

(** ** the loop of flush *)
Definition answer_of (a : ianswer) : option N := match a with IError => None | IStatus c => Some c end.
Definition client a := match a with Some code => ((400 <=? code) && (code <? 500))%N | None => false end.
Definition server a := match a with Some code => ((500 <=? code) && (code <? 600))%N | None => false end.
Definition count {A} (f : A -> bool) (l : list A) : N := N.of_nat (List.length (filter f l)).
Lemma accepted_iff code : accepted (Some code) <-> is_success code = true.
Proof. unfold accepted, is_success. rewrite Bool.andb_true_iff, N.leb_le, N.ltb_lt. reflexivity. Qed.
Lemma accepted_iff' code : ~ accepted (Some code) -> is_success code = false.
Proof. rewrite accepted_iff. destruct (is_success code); congruence. Qed.
Lemma count_cons {A} (f : A -> bool) a l : count f (a :: l) = ((if f a then 1 else 0) + count f l)%N.
Proof. unfold count. cbn. destruct (f a); cbn [List.length]; lia. Qed.
Lemma last_cons {A} (a : A) l d : l <> [] -> last (a :: l) d = last l d.
Proof. destruct l; [congruence|reflexivity]. Qed.
Lemma mkIC_eq a b c d a' b' c' d' : a = a' -> b = b' -> c = c' -> d = d' -> mkICounts a b c d = mkICounts a' b' c' d'.
Proof. congruence. Qed.
Lemma levels_ne n l : levels n l <> [].
Proof. destruct l; discriminate. Qed.
Ltac counts := match goal with |- Some (_, ?A, _) = Some (_, ?B, _) => replace A with B; [reflexivity|apply mkIC_eq; lia] end.
Lemma i_loop_run body code after : accepted (Some code) -> forall before n c, Forall (fun a => ~ accepted (answer_of a)) before ->
  i_loop body n c (before ++ IStatus code :: after)
  = Some ((last (levels n (map answer_of before)) 0 - 1)%N,
          mkICounts (ic_attempts c + fold_right N.add 0 (levels n (map answer_of before)))%N (ic_success c + 1)%N
            (ic_client c + count client (map answer_of before))%N (ic_server c + count server (map answer_of before))%N,
          map (fun k => (body, delay_ms k)) (levels n (map answer_of before))).
Proof.
  intros Hs. apply accepted_iff in Hs. induction before as [|a b IH]; intros n c F.
  - cbn. rewrite Hs. rewrite !N.add_0_r. reflexivity.
  - inversion F as [|? ? Ha Fb]; subst. cbn [app map levels fold_right i_loop]. rewrite !count_cons, last_cons by apply levels_ne.
    destruct a as [|x]; cbn [answer_of].
    + cbn [refused client server]. rewrite (IH n _ Fb). cbn [ic_attempts ic_success ic_client ic_server]. counts.
    + apply accepted_iff' in Ha. rewrite Ha. change (client (Some x)) with (is_client_error x). change (server (Some x)) with (is_server_error x). unfold is_client_error, is_server_error, refused.
      destruct (N.leb_spec 400 x), (N.ltb_spec x 500), (N.leb_spec 500 x), (N.ltb_spec x 600); cbn [andb]; cbv iota; try lia;
        rewrite (IH _ _ Fb); cbn [ic_attempts ic_success ic_client ic_server]; counts.
Qed.
Lemma i_loop_trying body ans : Forall (fun a => ~ accepted (answer_of a)) ans -> forall n c, i_loop body n c ans = None.
Proof.
  intros F. induction ans as [|a b IH]; intros n c; [reflexivity|]. inversion F as [|? ? Ha Fb]; subst. cbn [i_loop].
  destruct a as [|x]; [|cbn [answer_of] in Ha; apply accepted_iff' in Ha; rewrite Ha; destruct (is_client_error x); [|destruct (is_server_error x)]]; cbv zeta; rewrite (IH Fb); reflexivity.
Qed.
Lemma split_accepted ans : Forall (fun a => ~ accepted (answer_of a)) ans \/
  exists before code after, ans = before ++ IStatus code :: after /\ Forall (fun a => ~ accepted (answer_of a)) before /\ accepted (Some code).
Proof.
  induction ans as [|a ans [F|(b & code & af & -> & F & H)]]; [left; constructor| |].
  - destruct a as [|x]; [left; constructor; [intros []|exact F]|]. destruct (is_success x) eqn:E.
    + right. exists [], x, ans. split; [reflexivity|]. split; [constructor|]. apply accepted_iff. exact E.
    + left. constructor; [|exact F]. cbn [answer_of]. rewrite accepted_iff. congruence.
  - destruct a as [|x]; [right; exists (IError :: b), code, af; repeat split; try assumption; try (constructor; [intros []|exact F]); apply H|]. right. destruct (is_success x) eqn:E.
    + exists [], x, (b ++ IStatus code :: af). split; [reflexivity|]. split; [constructor|]. apply accepted_iff. exact E.
    + exists (IStatus x :: b), code, af. split; [reflexivity|]. split; [|exact H]. constructor; [|exact F]. cbn [answer_of]. rewrite accepted_iff. congruence.
Qed.

(** ** time *)
Lemma i_time_ns ts : (0 <= ts <= 9223372036)%Z -> Z.of_N (i_time ts) = (ts * 1000000000)%Z.
Proof.
  intros H. unfold i_time, i64_min, i64_max. rewrite Z2N.id by (apply Z.mod_pos_bound; lia).
  rewrite Z.min_r by lia. rewrite Z.max_r by lia. apply Z.mod_small. lia.
Qed.

(** ** reading a line back *)
Lemma clean_cons c s : clean (String c s) <-> special c = false /\ clean s.
Proof. unfold clean. cbn [list_ascii_of_string]. rewrite Forall_cons_iff. reflexivity. Qed.
Lemma split_special a : forall b d x e y, (a ++ String d x = b ++ String e y)%string ->
  clean a -> clean b -> special d = true -> special e = true -> a = b /\ d = e /\ x = y.
Proof.
  induction a as [|c a IH]; intros b d x e y E Ha Hb Hd He.
  - destruct b as [|c' b]; cbn in E; injection E as -> E.
    + auto.
    + apply clean_cons in Hb as [Hb _]. congruence.
  - apply clean_cons in Ha as [Hc Ha]. destruct b as [|c' b]; cbn in E; injection E as -> E; [congruence|].
    apply clean_cons in Hb as [_ Hb]. destruct (IH _ _ _ _ _ E Ha Hb Hd He) as (-> & -> & ->). auto.
Qed.
Lemma head_split tags : forall tags' n n' r r', clean n -> clean n' -> clean_tags tags -> clean_tags tags' ->
  (head_text n tags ++ String " " r = head_text n' tags' ++ String " " r')%string -> n = n' /\ tags = tags' /\ r = r'.
Proof.
  unfold head_text. induction tags as [|[k v] tags IH]; intros tags' n n' r r' Hn Hn' Ht Ht' E.
  - destruct tags' as [|[k' v'] tags'].
    + cbn [map] in E. change (texts []) with "" in E. rewrite !sapp_nil in E.
      destruct (split_special _ _ _ _ _ _ E Hn Hn' eq_refl eq_refl) as (-> & _ & ->). auto.
    + cbn [map] in E. change (texts []) with "" in E. rewrite texts_cons, sapp_nil, !sapp_assoc in E.
      destruct (split_special _ _ _ _ _ _ E Hn Hn' eq_refl eq_refl) as (_ & H & _). discriminate H.
  - inversion Ht as [|? ? [Hk Hv] Ht0]; subst. cbn [fst snd] in *. destruct tags' as [|[k' v'] tags'].
    + cbn [map] in E. change (texts []) with "" in E. rewrite texts_cons, sapp_nil, !sapp_assoc in E.
      destruct (split_special _ _ _ _ _ _ E Hn Hn' eq_refl eq_refl) as (_ & H & _). discriminate H.
    + inversion Ht' as [|? ? [Hk' Hv'] Ht0']; subst. cbn [fst snd] in *. cbn [map] in E. rewrite !texts_cons, !sapp_assoc in E. cbn [fst snd] in E.
      destruct (split_special _ _ _ _ _ _ E Hn Hn' eq_refl eq_refl) as (-> & _ & E1). cbn [String.append] in E1. rewrite ?sapp_assoc in E1.
      destruct (split_special _ _ _ _ _ _ E1 Hk Hk' eq_refl eq_refl) as (-> & _ & E2). cbn [String.append] in E2.
      rewrite <- !sapp_assoc in E2. destruct (IH _ _ _ _ _ Hv Hv' Ht0 Ht0' E2) as (-> & -> & ->). auto.
Qed.
