(** * Proofs about the native protocol. *)
From Verif Require Import Base BaseFacts FloatFacts TelemetryModel TelemetrySpec TelemetryProofs FiltersModel FiltersProofs ProtoModel ProtoProofs FramingModel FramingSpec FramingProofs NativeModel NativeSpec.
Open Scope string_scope. Open Scope list_scope. Open Scope nat_scope.

(** ** sizes *)
Lemma varint_pos n : (1 <= varint_size n)%N.
Proof. unfold varint_size. pose proof (varint_len 10 n). lia. Qed.
Lemma varint_size_len n : varint_size n = N.of_nat (List.length (write_varint n)).
Proof. reflexivity. Qed.
Lemma tag_len num wt : (0 < num < 16)%N -> (wt < 8)%N -> List.length (write_tag num wt) = 1.
Proof. intros H1 H2. unfold write_tag. rewrite varint_small by lia. reflexivity. Qed.
Lemma len_field_len num bs : (0 < num < 16)%N ->
  N.of_nat (List.length (write_field (num, WLen bs))) = (1 + varint_size (N.of_nat (List.length bs)) + N.of_nat (List.length bs))%N.
Proof. intros H. unfold write_field. cbn [fst snd]. rewrite app_length, app_length, tag_len by (cbn; lia). rewrite varint_size_len. lia. Qed.
Lemma var_field_len num n : (0 < num < 16)%N -> N.of_nat (List.length (write_field (num, WVarint n))) = (1 + varint_size n)%N.
Proof. intros H. unfold write_field. cbn [fst snd]. rewrite app_length, tag_len by (cbn; lia). rewrite varint_size_len. lia. Qed.
Lemma fix_field_len num n : (0 < num < 16)%N -> N.of_nat (List.length (write_field (num, WFixed64 n))) = 9%N.
Proof. intros H. unfold write_field. cbn [fst snd]. rewrite app_length, tag_len, le_bytes_len by (cbn; lia). reflexivity. Qed.
Lemma string_field_len num s : (0 < num < 16)%N -> N.of_nat (List.length (write_field (num, string_field s))) = string_size s.
Proof. intros H. unfold string_field. rewrite len_field_len by assumption. rewrite sbytes_len. reflexivity. Qed.
Lemma entry_len kv : N.of_nat (List.length (entry_bytes kv)) = (string_size (fst kv) + string_size (snd kv))%N.
Proof. unfold entry_bytes. rewrite app_length, Nat2N.inj_add, !string_field_len by lia. reflexivity. Qed.
Definition flen (fs : list (N * wire)) : N := N.of_nat (List.length (fields_bytes fs)).
Lemma flen_app a b : flen (a ++ b) = (flen a + flen b)%N.
Proof. unfold flen, fields_bytes. rewrite map_app, concat_app, app_length. lia. Qed.
Lemma flen_one f : flen [f] = N.of_nat (List.length (write_field f)).
Proof. unfold flen, fields_bytes. cbn. rewrite app_nil_r. reflexivity. Qed.
Lemma flen_meta num m : (0 < num < 16)%N -> flen (meta_fields num m) = meta_size m.
Proof.
  intros H. unfold meta_size. induction m as [|kv m IH]; [reflexivity|]. unfold meta_fields. cbn [map].
  change ((num, WLen (entry_bytes kv)) :: map _ m) with ([(num, WLen (entry_bytes kv))] ++ meta_fields num m).
  rewrite flen_app, flen_one, len_field_len, IH, entry_len by assumption. unfold sumN. cbn [fold_right]. reflexivity.
Qed.
Lemma flen_opt {A} num (f : A -> wire) g (o : option A) : (forall x, o = Some x -> N.of_nat (List.length (write_field (num, f x))) = g x) ->
  flen (opt_field num f o) = opt_size g o.
Proof. intros H. destruct o as [x|]; [|reflexivity]. cbn [opt_field opt_size]. rewrite flen_one. apply H. reflexivity. Qed.
Lemma flen_bounds l : flen (map (fun x => (7%N, WFixed64 (Z.to_N (fbits x)))) l) = (9 * N.of_nat (List.length l))%N.
Proof.
  induction l as [|x l IH]; [reflexivity|]. cbn [map].
  change (?a :: ?b) with ([a] ++ b). rewrite flen_app, flen_one, IH, fix_field_len by lia. cbn [List.app List.length]. lia.
Qed.
Definition samples_extra (n : nat) : N := match n with 0 => 0%N | _ => (varint_size (N.of_nat n * 8) - varint_size (N.of_nat n))%N end.
Lemma varint_mono fuel : forall n m, (n <= m)%N -> List.length (varint fuel n) <= List.length (varint fuel m).
Proof.
  induction fuel as [|fuel IH]; intros n m H; [reflexivity|]. cbn [varint].
  destruct (N.ltb_spec n 128), (N.ltb_spec m 128); cbn [List.length]; try lia.
  apply le_n_S. apply IH. apply N.div_le_mono; lia.
Qed.
Lemma varint_size_mono n m : (n <= m)%N -> (varint_size n <= varint_size m)%N.
Proof. intros H. unfold varint_size. pose proof (varint_mono 10 n m H). lia. Qed.
(** the length of a written point *)
Lemma point_len p : N.of_nat (List.length (point_bytes p)) = (point_size p + samples_extra (List.length (w_samples p)))%N.
Proof.
  change (N.of_nat (List.length (point_bytes p))) with (flen (point_fields p)). unfold point_fields, point_size.
  rewrite !flen_app, flen_bounds, (flen_meta 5) by lia.
  rewrite (flen_opt 1 string_field string_size) by (intros; apply string_field_len; lia).
  rewrite (flen_opt 3 _ (fun _ => 2%N)) by (intros b _; rewrite var_field_len by lia; destruct b; reflexivity).
  rewrite (flen_opt 4 _ (fun m => (1 + varint_size (method_num m))%N)) by (intros; apply var_field_len; lia).
  rewrite (flen_opt 6 _ (fun z => (1 + varint_size (u64_of z))%N)) by (intros; apply var_field_len; lia).
  destruct (w_samples p) as [|x l] eqn:E.
  - cbn [List.length samples_extra samples_field]. change (flen []) with 0%N. lia.
  - cbn [samples_field]. rewrite flen_one, len_field_len, doubles_len by lia. unfold samples_extra. cbn [List.length].
    set (n := N.of_nat (S (List.length l))). replace (N.of_nat (8 * S (List.length l))) with (n * 8)%N by lia.
    pose proof (varint_size_mono n (n * 8) ltac:(lia)). lia.
Qed.
Lemma line_len l : N.of_nat (List.length (line_bytes l)) = line_size l.
Proof.
  change (N.of_nat (List.length (line_bytes l))) with (flen (line_fields l)). unfold line_fields, line_size.
  rewrite !flen_app, (flen_meta 3) by lia.
  rewrite (flen_opt 1 string_field string_size) by (intros; apply string_field_len; lia).
  rewrite (flen_opt 2 string_field string_size) by (intros; apply string_field_len; lia).
  rewrite (flen_opt 4 _ (fun z => (1 + varint_size (u64_of z))%N)) by (intros; apply var_field_len; lia). lia.
Qed.
Lemma varint_size_bounds n k : (k <= 9)%N -> (128 ^ k <= n < 128 ^ (k + 1))%N -> varint_size n = (k + 1)%N.
Proof.
  unfold varint_size. intros Hk. revert n. assert (G : forall fuel kn n, kn < fuel -> (128 ^ N.of_nat kn <= n < 128 ^ (N.of_nat kn + 1))%N -> List.length (varint fuel n) = S kn).
  { induction fuel as [|fuel IH]; intros kn n Hf Hn; [lia|]. cbn [varint]. destruct kn as [|kn].
    - change (128 ^ (N.of_nat 0 + 1))%N with 128%N in Hn. destruct (N.ltb_spec n 128); [reflexivity|lia].
    - set (q := (128 ^ N.of_nat kn)%N). assert (Q1 : (1 <= q)%N) by (pose proof (N.pow_nonzero 128 (N.of_nat kn) ltac:(lia)); lia).
      assert (E3 : (128 ^ (N.of_nat kn + 1) = 128 * q)%N) by (rewrite N.add_1_r, N.pow_succ_r'; reflexivity).
      rewrite Nat2N.inj_succ, (N.add_1_r (N.succ _)), !N.pow_succ_r' in Hn. fold q in Hn.
      destruct (N.ltb_spec n 128); [lia|]. cbn [List.length]. f_equal. apply IH; [lia|]. rewrite E3. fold q. split.
      + apply N.div_le_lower_bound; lia.
      + apply N.div_lt_upper_bound; lia. }
  intros n H. rewrite (G 10 (N.to_nat k) n); [lia|lia|]. rewrite N2Nat.id. exact H.
Qed.
Lemma fits_extra n : count_fits n -> samples_extra n = 0%N.
Proof.
  unfold count_fits. intros H. destruct n as [|n]; [reflexivity|]. unfold samples_extra. set (m := N.of_nat (S n)) in *. destruct H as [H|[H|H]].
  - rewrite (varint_size_bounds (m * 8) 0), (varint_size_bounds m 0) by (cbn; lia). reflexivity.
  - rewrite (varint_size_bounds (m * 8) 1), (varint_size_bounds m 1) by (cbn; lia). reflexivity.
  - rewrite (varint_size_bounds (m * 8) 2), (varint_size_bounds m 2) by (cbn; lia). reflexivity.
Qed.
Lemma misfits_extra n : count_misfits n -> samples_extra n = 1%N.
Proof.
  unfold count_misfits. intros H. destruct n as [|n]; [cbn in H; lia|]. unfold samples_extra. set (m := N.of_nat (S n)) in *. destruct H as [H|H].
  - rewrite (varint_size_bounds (m * 8) 1), (varint_size_bounds m 0) by (cbn; lia). reflexivity.
  - rewrite (varint_size_bounds (m * 8) 2), (varint_size_bounds m 1) by (cbn; lia). reflexivity.
Qed.

(** ** reading a message back *)
Section Read.
Variable utf8 : list N -> bool.
Notation string_ok := (string_ok utf8).
Lemma read_string_ok s : string_ok s -> read_string utf8 (sbytes s) = Some s.
Proof. intros H. unfold read_string. rewrite H, bstring_sbytes. reflexivity. Qed.
Lemma read_entry_ok kv : string_ok (fst kv) -> string_ok (snd kv) -> (N.of_nat (List.length (entry_bytes kv)) < 2 ^ 32)%N ->
  read_entry utf8 (entry_bytes kv) = Some kv.
Proof.
  intros H1 H2 HL. unfold read_entry. assert (E : entry_bytes kv = List.concat (map write_field [(1%N, string_field (fst kv)); (2%N, string_field (snd kv))])).
  { unfold entry_bytes. cbn [map List.concat]. rewrite app_nil_r. reflexivity. }
  rewrite entry_len in HL. unfold string_size in HL.
  rewrite E, parse_write_fields.
  - cbn [entry_merge string_field]. rewrite !read_string_ok by assumption. destruct kv; reflexivity.
  - constructor; [|constructor; [|constructor]]; (split; [cbn; lia|]); cbn [snd wire_ok string_field]; rewrite sbytes_len; lia.
Qed.
Lemma merge_all_app {M} (step : M -> N * wire -> option M) a : forall m b,
  merge_all step m (a ++ b) = match merge_all step m a with Some m' => merge_all step m' b | None => None end.
Proof. induction a as [|f a IH]; intros m b; cbn; [reflexivity|]. destruct (step m f); [apply IH|reflexivity]. Qed.
Lemma field_len_bound num bs fs : In (num, WLen bs) fs -> List.length bs <= List.length (fields_bytes fs).
Proof.
  unfold fields_bytes. induction fs as [|f fs IH]; [intros []|]. intros [->|H]; cbn [map List.concat]; rewrite app_length.
  - unfold write_field. cbn [fst snd]. rewrite !app_length. lia.
  - specialize (IH H). lia.
Qed.
(** [tm_insert] of fresh keys *)
Lemma insert_all_fresh l : forall m, NoDup (map fst (m ++ l)) -> fold_left (fun m kv => tm_insert (fst kv) (snd kv) m) l m = m ++ l.
Proof.
  induction l as [|[k v] l IH]; intros m H; cbn [fold_left]; [rewrite app_nil_r; reflexivity|].
  assert (Hk : ~ In k (map fst m)) by (rewrite map_app in H; cbn in H; apply NoDup_remove_2 in H; intros Hin; apply H, in_or_app; left; exact Hin).
  unfold tm_insert. cbn [fst snd]. rewrite (ainsert_app_new seqb seqb_eq) by assumption. fold tm_insert. change (fun m0 (kv : string * string) => ainsert seqb (fst kv) (snd kv) m0) with (fun m0 (kv : string * string) => tm_insert (fst kv) (snd kv) m0).
  rewrite IH; rewrite <- app_assoc; [reflexivity|exact H].
Qed.
Lemma u64_lt z : (u64_of z < 2 ^ 64)%N.
Proof. unfold u64_of. pose proof (Z.mod_pos_bound z (2 ^ 64) ltac:(lia)). lia. Qed.
Lemma point_fields_ok p : (N.of_nat (List.length (point_bytes p)) < 2 ^ 32)%N -> Forall f_ok (w_bounds p) -> Forall field_ok (point_fields p).
Proof.
  intros HL Hb. apply Forall_forall. intros [num w] Hin.
  assert (B : forall bs, w = WLen bs -> (N.of_nat (List.length bs) < 2 ^ 32)%N).
  { intros bs ->. pose proof (field_len_bound _ _ _ Hin). unfold point_bytes in HL. lia. }
  unfold point_fields in Hin. repeat rewrite in_app_iff in Hin.
  assert (O : forall A n (f : A -> wire) o, In (num, w) (opt_field n f o) -> num = n /\ exists x, w = f x).
  { intros A n f [x|]; cbn; [intros [[= <- <-]|[]]; split; [reflexivity|exists x; reflexivity]|intros []]. }
  split; cbn [fst snd].
  - destruct Hin as [H|[H|[H|[H|[H|[H|H]]]]]]; try (apply O in H as [-> _]; lia).
    + destruct (w_samples p); [destruct H|]. destruct H as [[= <- _]|[]]. lia.
    + unfold meta_fields in H. apply in_map_iff in H as (kv & [= <- _] & _). lia.
    + apply in_map_iff in H as (x & [= <- _] & _). lia.
  - destruct Hin as [H|[H|[H|[H|[H|[H|H]]]]]].
    + apply O in H as [_ (x & E)]. unfold string_field in E. rewrite E in *. cbn. apply B. reflexivity.
    + destruct (w_samples p); [destruct H|]. destruct H as [[= _ <-]|[]]. cbn [wire_ok]. apply B. reflexivity.
    + apply O in H as [_ (x & ->)]. cbn. destruct x; lia.
    + apply O in H as [_ (x & ->)]. cbn. destruct x; cbn; lia.
    + unfold meta_fields in H. apply in_map_iff in H as (kv & [= _ <-] & _). cbn [wire_ok]. apply B. reflexivity.
    + apply O in H as [_ (x & ->)]. cbn. apply u64_lt.
    + apply in_map_iff in H as (x & [= _ <-] & Hx). cbn. rewrite Forall_forall in Hb. apply fbits_N, Hb, Hx.
Qed.
Lemma merge_meta5 m : forall p, Forall (fun kv => string_ok (fst kv) /\ string_ok (snd kv)) m ->
  (forall kv, In kv m -> (N.of_nat (List.length (entry_bytes kv)) < 2 ^ 32)%N) -> NoDup (map fst (w_meta p ++ m)) ->
  merge_all (point_field utf8) p (meta_fields 5 m) =
  Some (mkWPoint (w_name p) (w_samples p) (w_persisted p) (w_method p) (w_meta p ++ m) (w_ts p) (w_bounds p)).
Proof.
  induction m as [|kv m IH]; intros p H HL HN.
  - cbn. rewrite app_nil_r. destruct p; reflexivity.
  - inversion H as [|? ? [H1 H2] H3]; subst. cbn [meta_fields map merge_all point_field]. rewrite read_entry_ok by (auto; apply HL; left; reflexivity).
    destruct kv as [k v]. cbn [fst snd] in *. fold (meta_fields 5 m).
    assert (Hk : ~ In k (map fst (w_meta p))) by (rewrite map_app in HN; cbn in HN; apply NoDup_remove_2 in HN; intros Hin; apply HN, in_or_app; left; exact Hin).
    unfold tm_insert. rewrite (ainsert_app_new seqb seqb_eq) by assumption.
    change (map _ m) with (meta_fields 5 m). rewrite IH; cbn [w_meta]; try assumption.
    + cbn [w_name w_samples w_persisted w_method w_ts w_bounds]. rewrite <- app_assoc. reflexivity.
    + intros kv Hin. apply HL. right. exact Hin.
    + rewrite <- app_assoc. exact HN.
Qed.
Lemma merge_bounds7 l : forall p, Forall f_ok l ->
  merge_all (point_field utf8) p (map (fun x => (7%N, WFixed64 (Z.to_N (fbits x)))) l) =
  Some (mkWPoint (w_name p) (w_samples p) (w_persisted p) (w_method p) (w_meta p) (w_ts p) (w_bounds p ++ l)).
Proof.
  induction l as [|x l IH]; intros p H.
  - cbn. rewrite app_nil_r. destruct p; reflexivity.
  - inversion H; subst. cbn [map merge_all point_field read_doubles]. destruct (fbits_N x) as [_ ->]; [assumption|].
    rewrite IH by assumption. cbn [w_name w_samples w_persisted w_method w_meta w_ts w_bounds]. rewrite <- app_assoc. reflexivity.
Qed.
Lemma entry_in_point p kv : In kv (w_meta p) -> List.length (entry_bytes kv) <= List.length (point_bytes p).
Proof.
  intros H. apply (field_len_bound 5). unfold point_fields. repeat rewrite in_app_iff. do 4 right. left. apply in_map_iff. exists kv. split; [reflexivity|assumption].
Qed.
Theorem read_point p : wpoint_ok utf8 p -> read_message (point_field utf8) wpoint_new (point_bytes p) = Some p.
Proof.
  intros (H1 & H2 & [H3 H3'] & H4 & H5 & HL). unfold read_message, point_bytes, fields_bytes. rewrite parse_write_fields by (apply point_fields_ok; assumption).
  unfold point_fields.
  assert (E1 : merge_all (point_field utf8) wpoint_new (opt_field 1 string_field (w_name p)) = Some (mkWPoint (w_name p) [] None None [] None [])).
  { destruct (w_name p) as [s|]; [|reflexivity]. cbn. cbn in H1. rewrite read_string_ok by assumption. reflexivity. }
  rewrite merge_all_app, E1. clear E1.
  assert (E2 : merge_all (point_field utf8) (mkWPoint (w_name p) [] None None [] None []) (samples_field (w_samples p))
    = Some (mkWPoint (w_name p) (w_samples p) None None [] None [])).
  { destruct (w_samples p) as [|x l] eqn:E; [reflexivity|]. cbn [samples_field merge_all point_field read_doubles]. rewrite read_packed_write by (assumption || (rewrite doubles_len; cbn; lia)). reflexivity. }
  rewrite merge_all_app, E2. clear E2.
  assert (E3 : merge_all (point_field utf8) (mkWPoint (w_name p) (w_samples p) None None [] None []) (opt_field 3 (fun b : bool => WVarint (if b then 1 else 0)) (w_persisted p))
    = Some (mkWPoint (w_name p) (w_samples p) (w_persisted p) None [] None [])) by (destruct (w_persisted p) as [[]|]; reflexivity).
  rewrite merge_all_app, E3. clear E3.
  assert (E4 : merge_all (point_field utf8) (mkWPoint (w_name p) (w_samples p) (w_persisted p) None [] None []) (opt_field 4 (fun m => WVarint (method_num m)) (w_method p))
    = Some (mkWPoint (w_name p) (w_samples p) (w_persisted p) (w_method p) [] None [])) by (destruct (w_method p) as [[]|]; reflexivity).
  rewrite merge_all_app, E4. clear E4.
  rewrite merge_all_app, merge_meta5; [|assumption|intros kv Hin; pose proof (entry_in_point p kv Hin); lia|exact H3]. cbn [w_name w_samples w_persisted w_method w_meta w_ts w_bounds List.app].
  assert (E6 : forall q, w_ts q = None -> merge_all (point_field utf8) q (opt_field 6 (fun z => WVarint (u64_of z)) (w_ts p))
    = Some (mkWPoint (w_name q) (w_samples q) (w_persisted q) (w_method q) (w_meta q) (w_ts p) (w_bounds q))).
  { intros q Eq. destruct (w_ts p) as [z|]; cbn [opt_field merge_all point_field]; [|rewrite <- Eq; destruct q; reflexivity]. cbn in H4. destruct (i64_u64 z H4) as [-> _]. reflexivity. }
  rewrite merge_all_app, E6 by reflexivity. clear E6. rewrite merge_bounds7 by assumption. cbn. destruct p; reflexivity.
Qed.
Lemma line_fields_ok l : (N.of_nat (List.length (line_bytes l)) < 2 ^ 32)%N -> Forall field_ok (line_fields l).
Proof.
  intros HL. apply Forall_forall. intros [num w] Hin.
  assert (B : forall bs, w = WLen bs -> (N.of_nat (List.length bs) < 2 ^ 32)%N).
  { intros bs ->. pose proof (field_len_bound _ _ _ Hin). unfold line_bytes in HL. lia. }
  unfold line_fields in Hin. repeat rewrite in_app_iff in Hin.
  assert (O : forall A n (f : A -> wire) o, In (num, w) (opt_field n f o) -> num = n /\ exists x, w = f x).
  { intros A n f [x|]; cbn; [intros [[= <- <-]|[]]; split; [reflexivity|exists x; reflexivity]|intros []]. }
  split; cbn [fst snd].
  - destruct Hin as [H|[H|[H|H]]]; try (apply O in H as [-> _]; lia).
    unfold meta_fields in H. apply in_map_iff in H as (kv & [= <- _] & _). lia.
  - destruct Hin as [H|[H|[H|H]]].
    + apply O in H as [_ (x & E)]. unfold string_field in E. rewrite E in *. cbn. apply B. reflexivity.
    + apply O in H as [_ (x & E)]. unfold string_field in E. rewrite E in *. cbn. apply B. reflexivity.
    + unfold meta_fields in H. apply in_map_iff in H as (kv & [= _ <-] & _). cbn [wire_ok]. apply B. reflexivity.
    + apply O in H as [_ (x & ->)]. cbn. apply u64_lt.
Qed.
Lemma merge_meta3 m : forall p, Forall (fun kv => string_ok (fst kv) /\ string_ok (snd kv)) m ->
  (forall kv, In kv m -> (N.of_nat (List.length (entry_bytes kv)) < 2 ^ 32)%N) -> NoDup (map fst (wl_meta p ++ m)) ->
  merge_all (line_field utf8) p (meta_fields 3 m) = Some (mkWLine (wl_path p) (wl_value p) (wl_meta p ++ m) (wl_ts p)).
Proof.
  induction m as [|kv m IH]; intros p H HL HN.
  - cbn. rewrite app_nil_r. destruct p; reflexivity.
  - inversion H as [|? ? [H1 H2] H3]; subst. cbn [meta_fields map merge_all line_field]. rewrite read_entry_ok by (auto; apply HL; left; reflexivity).
    destruct kv as [k v]. cbn [fst snd] in *. 
    assert (Hk : ~ In k (map fst (wl_meta p))) by (rewrite map_app in HN; cbn in HN; apply NoDup_remove_2 in HN; intros Hin; apply HN, in_or_app; left; exact Hin).
    unfold tm_insert. rewrite (ainsert_app_new seqb seqb_eq) by assumption.
    change (map _ m) with (meta_fields 3 m). rewrite IH; cbn [wl_meta]; try assumption.
    + cbn [wl_path wl_value wl_ts]. rewrite <- app_assoc. reflexivity.
    + intros kv Hin. apply HL. right. exact Hin.
    + rewrite <- app_assoc. exact HN.
Qed.
Theorem read_line p : wline_ok utf8 p -> read_message (line_field utf8) wline_new (line_bytes p) = Some p.
Proof.
  intros (H1 & H2 & [H3 H3'] & H4 & HL). unfold read_message, line_bytes, fields_bytes. rewrite parse_write_fields by (apply line_fields_ok; assumption).
  unfold line_fields.
  assert (E1 : merge_all (line_field utf8) wline_new (opt_field 1 string_field (wl_path p)) = Some (mkWLine (wl_path p) None [] None)).
  { destruct (wl_path p) as [s|]; [|reflexivity]. cbn. cbn in H1. rewrite read_string_ok by assumption. reflexivity. }
  rewrite merge_all_app, E1. clear E1.
  assert (E2 : merge_all (line_field utf8) (mkWLine (wl_path p) None [] None) (opt_field 2 string_field (wl_value p)) = Some (mkWLine (wl_path p) (wl_value p) [] None)).
  { destruct (wl_value p) as [s|]; [|reflexivity]. cbn. cbn in H2. rewrite read_string_ok by assumption. reflexivity. }
  rewrite merge_all_app, E2. clear E2.
  rewrite merge_all_app, merge_meta3; [|assumption| |exact H3].
  - cbn [wl_path wl_value wl_meta wl_ts List.app]. destruct p as [pa va me [z|]]; cbn in *; [|reflexivity]. destruct (i64_u64 z H4) as [-> _]. reflexivity.
  - intros kv Hin. assert (List.length (entry_bytes kv) <= List.length (line_bytes p)); [|lia].
    apply (field_len_bound 3). unfold line_fields. repeat rewrite in_app_iff. do 2 right. left. apply in_map_iff. exists kv. split; [reflexivity|assumption].
Qed.

(** ** payloads *)
Definition item_field (i : item) : N * wire :=
  match i with IPoint p => (2%N, WLen (point_bytes p)) | ILine l => (3%N, WLen (line_bytes l)) | IOther num w => (num, w) end.
Lemma item_bytes_field i : item_bytes i = write_field (item_field i).
Proof. destruct i; reflexivity. Qed.
Lemma item_field_ok i : item_ok utf8 i -> field_ok (item_field i).
Proof.
  destruct i as [p|l|num w]; cbn [item_ok item_field].
  - intros (_ & _ & _ & _ & _ & H). split; [cbn; lia|exact H].
  - intros (_ & _ & _ & _ & H). split; [cbn; lia|exact H].
  - intros (H1 & _ & _ & H2). split; [exact H1|]. destruct w; exact H2.
Qed.
Lemma merge_items is : forall pl, Forall (item_ok utf8) is ->
  merge_all (payload_field utf8) pl (map item_field is) = Some (fst pl ++ item_points is, snd pl ++ item_lines is).
Proof.
  induction is as [|i is IH]; intros pl H.
  - cbn. rewrite !app_nil_r. destruct pl; reflexivity.
  - inversion H as [|? ? Hi His]; subst. cbn [map merge_all]. destruct i as [p|l|num w]; cbn [item_field].
    + unfold payload_field at 1. rewrite read_point by exact Hi. rewrite IH by assumption. cbn [fst snd item_points item_lines flat_map]. rewrite <- app_assoc. reflexivity.
    + unfold payload_field at 1. rewrite read_line by exact Hi. rewrite IH by assumption. cbn [fst snd item_points item_lines flat_map]. rewrite <- app_assoc. reflexivity.
    + destruct Hi as (_ & N2 & N3 & _).
      assert (E : payload_field utf8 pl (num, w) = Some pl).
      { cbn [payload_field]. destruct num as [|[[]|[]|]]; try reflexivity; congruence. }
      rewrite E, IH by assumption. reflexivity.
Qed.
Theorem read_items is : Forall (item_ok utf8) is ->
  parse_payload utf8 (List.concat (map item_bytes is)) = Some (item_points is, item_lines is).
Proof.
  intros H. unfold parse_payload, read_message.
  replace (map item_bytes is) with (map write_field (map item_field is)) by (rewrite map_map; apply map_ext; intros; symmetry; apply item_bytes_field).
  rewrite parse_write_fields.
  - rewrite merge_items by assumption. reflexivity.
  - apply Forall_map. eapply Forall_impl; [|exact H]. intros i. apply item_field_ok.
Qed.
(** texts that are not UTF-8 *)
Lemma merge_all_stuck {M} (step : M -> N * wire -> option M) f : (forall m, step m f = None) -> forall fs m, In f fs -> merge_all step m fs = None.
Proof. intros H. induction fs as [|g fs IH]; intros m Hin; [destruct Hin|]. cbn. destruct Hin as [->|Hin]; [rewrite H; reflexivity|]. destruct (step m g); [apply IH; exact Hin|reflexivity]. Qed.
Lemma read_string_bad s : utf8 (sbytes s) = false -> read_string utf8 (sbytes s) = None.
Proof. intros H. unfold read_string. rewrite H. reflexivity. Qed.
Lemma read_entry_bad kv : utf8 (sbytes (fst kv)) = false \/ utf8 (sbytes (snd kv)) = false -> (N.of_nat (List.length (entry_bytes kv)) < 2 ^ 32)%N -> read_entry utf8 (entry_bytes kv) = None.
Proof.
  intros H HL. unfold read_entry. assert (E : entry_bytes kv = List.concat (map write_field [(1%N, string_field (fst kv)); (2%N, string_field (snd kv))])).
  { unfold entry_bytes. cbn [map List.concat]. rewrite app_nil_r. reflexivity. }
  rewrite entry_len in HL. unfold string_size in HL. rewrite E, parse_write_fields.
  - cbn [entry_merge string_field]. destruct (utf8 (sbytes (fst kv))) eqn:E1; [|rewrite (read_string_bad (fst kv)) by exact E1; reflexivity].
    destruct H as [H|H]; [discriminate|]. rewrite (read_string_bad (snd kv)) by exact H. destruct (read_string utf8 (sbytes (fst kv))); reflexivity.
  - constructor; [|constructor; [|constructor]]; (split; [cbn; lia|]); cbn [snd wire_ok string_field]; rewrite sbytes_len; lia.
Qed.
Lemma bad_text_stuck i : item_fits i -> item_bad_text utf8 i -> forall pl, payload_field utf8 pl (item_field i) = None.
Proof.
  destruct i as [p|l|num w]; cbn [item_fits item_bad_text item_field]; [| |intros []]; intros HF HB pl; unfold payload_field.
  - destruct HF as [HL Hb]. unfold read_message, point_bytes, fields_bytes. rewrite parse_write_fields by (apply point_fields_ok; assumption). destruct HB as [(s & E & Hs)|(kv & Hkv & Hs)].
    + rewrite (merge_all_stuck (point_field utf8) (1%N, string_field s)); [reflexivity|intros m; cbn; rewrite read_string_bad by exact Hs; reflexivity|]. unfold point_fields. rewrite E. left. reflexivity.
    + assert (Hin : In (5%N, WLen (entry_bytes kv)) (point_fields p)) by (unfold point_fields; repeat rewrite in_app_iff; do 4 right; left; apply in_map_iff; exists kv; split; [reflexivity|exact Hkv]).
      rewrite (merge_all_stuck (point_field utf8) (5%N, WLen (entry_bytes kv))); [reflexivity| |exact Hin]. intros m. cbn [point_field line_field]. rewrite read_entry_bad; [reflexivity|exact Hs|]. pose proof (field_len_bound _ _ _ Hin). unfold point_bytes in HL. lia.
  - unfold read_message, line_bytes, fields_bytes. rewrite parse_write_fields by (apply line_fields_ok; assumption). destruct HB as [(s & E & Hs)|[(s & E & Hs)|(kv & Hkv & Hs)]].
    + rewrite (merge_all_stuck (line_field utf8) (1%N, string_field s)); [reflexivity|intros m; cbn; rewrite read_string_bad by exact Hs; reflexivity|]. unfold line_fields. rewrite E. left. reflexivity.
    + rewrite (merge_all_stuck (line_field utf8) (2%N, string_field s)); [reflexivity|intros m; cbn; rewrite read_string_bad by exact Hs; reflexivity|]. unfold line_fields. rewrite E. apply in_or_app. right. left. reflexivity.
    + assert (Hin : In (3%N, WLen (entry_bytes kv)) (line_fields l)) by (unfold line_fields; repeat rewrite in_app_iff; do 2 right; left; apply in_map_iff; exists kv; split; [reflexivity|exact Hkv]).
      rewrite (merge_all_stuck (line_field utf8) (3%N, WLen (entry_bytes kv))); [reflexivity| |exact Hin]. intros m. cbn [point_field line_field]. rewrite read_entry_bad; [reflexivity|exact Hs|]. pose proof (field_len_bound _ _ _ Hin). unfold line_bytes in HF. lia.
Qed.
Lemma bad_text_payload is i is' : Forall (item_ok utf8) is -> Forall (item_ok utf8) is' -> item_fits i -> item_bad_text utf8 i ->
  parse_payload utf8 (List.concat (map item_bytes (is ++ i :: is'))) = None.
Proof.
  intros H H' HF HB. unfold parse_payload, read_message.
  replace (map item_bytes (is ++ i :: is')) with (map write_field (map item_field (is ++ i :: is'))) by (rewrite map_map; apply map_ext; intros; symmetry; apply item_bytes_field).
  rewrite parse_write_fields.
  - apply (merge_all_stuck _ (item_field i)); [apply bad_text_stuck; assumption|]. apply in_map, in_or_app. right. left. reflexivity.
  - apply Forall_map, Forall_app. split; [eapply Forall_impl; [|exact H]; intros x; apply item_field_ok|]. constructor; [|eapply Forall_impl; [|exact H']; intros x; apply item_field_ok].
    destruct i as [p|l|num w]; cbn [item_fits item_bad_text item_field] in *; [split; [cbn; lia|exact (proj1 HF)]|split; [cbn; lia|exact HF]|destruct HB].
Qed.
End Read.

(** ** the source: from wire points to events *)
Section Source.
Context `{Q : QLib}.
Definition vins (v : value) (x : f64) : value :=
  match v with VSet _ => VSet x | VSum y => VSum (fadd y x) | VHist h => VHist (h_insert h x) | VQuant c s => VQuant (c_insert c x) (fadd s x) end.
Lemma insert_fold rest : forall t, t_override_count t = None -> t_override_sum t = None ->
  fold_left (fun o y => match o with Some t => t_insert y t | None => None end) rest (Some t) = Some (t_set_value (fold_left vins rest (t_value t)) t).
Proof.
  induction rest as [|x rest IH]; intros t H1 H2; cbn [fold_left].
  - destruct t; reflexivity.
  - unfold t_insert at 2. rewrite H1, H2. rewrite IH by (cbn; assumption). cbn [t_value t_set_value]. destruct t; reflexivity.
Qed.
Lemma vins_set l : forall x, exists l' y, x :: l = l' ++ [y] /\ fold_left vins l (VSet x) = VSet y.
Proof.
  induction l as [|z l IH]; intros x; [exists [], x; split; reflexivity|]. cbn [fold_left vins].
  destruct (IH z) as (l' & y & E & E'). exists (x :: l'), y. split; [rewrite E; reflexivity|exact E'].
Qed.
Lemma vins_sum l : forall x, fold_left vins l (VSum x) = VSum (fold_left fadd l x).
Proof. induction l as [|z l IH]; intros x; [reflexivity|]. cbn. apply IH. Qed.
Lemma vins_quant l : forall c s, fold_left vins l (VQuant c s) = VQuant (fold_left c_insert l c) (fold_left fadd l s).
Proof. induction l as [|z l IH]; intros c s; [reflexivity|]. cbn. apply IH. Qed.
Lemma vins_hist l : forall h, fold_left vins l (VHist h) = VHist (fold_left h_insert l h).
Proof. induction l as [|z l IH]; intros h; [reflexivity|]. cbn. apply IH. Qed.
Lemma drain_some m : forall acc, drain_tags m (Some acc) = Some (fold_left (fun m kv => tm_insert (fst kv) (snd kv) m) m acc).
Proof. induction m as [|kv m IH]; intros acc; [reflexivity|]. unfold drain_tags in *. cbn [fold_left]. rewrite <- IH. reflexivity. Qed.
Lemma drain_none m : tm_ok m -> drain_tags m None = match m with [] => None | _ => Some m end.
Proof.
  intros H. destruct m as [|[k v] m]; [reflexivity|]. unfold drain_tags. cbn [fold_left fst snd].
  change (fold_left _ m (overlay_tag k v None)) with (drain_tags m (Some [(k, v)])). rewrite drain_some, insert_all_fresh by exact H. reflexivity.
Qed.
Lemma drain_are m : tm_ok m -> tags_are m (drain_tags m None).
Proof. intros H k. rewrite drain_none by assumption. destruct m; reflexivity. Qed.
Lemma ms_seconds_exact s : (Z.abs s <= 2 ^ 43)%Z -> ms_seconds (s * 1000) = s.
Proof. apply seconds_through_millis. Qed.
(** the library takes the bounds harden gives it *)
Definition bounds_taken : Prop := h_new [fofZ 1; fofZ 10; fofZ 100; fofZ 1000] <> None.
Lemma point_event_ok now p : tm_ok (w_meta p) -> w_samples p <> [] ->
  (odefault MSummarize (w_method p) = MHistogram -> bounds_taken) ->
  exists e, point_event now p = Some [e] /\ point_becomes p e.
Proof.
  intros Hm Hs Hh. unfold point_event, point_becomes. destruct (w_samples p) as [|x rest]; [congruence|]. cbv zeta.
  set (bld := b_timestamp _ _).
  assert (G : exists v, harden now bld = HOk (mkTelemetry (odefault "" (w_name p)) v (odefault false (w_persisted p)) None (ms_seconds (odefault 0%Z (w_ts p))) None None) /\
     merged_samples (odefault MSummarize (w_method p)) (x :: rest) (fold_left vins rest v)).
  { subst bld. unfold harden. cbn [s_initial s_thawed s_name s_kind s_timestamp s_persist s_error s_bounds s_tags s_count s_sum b_timestamp b_persist b_kind b_value b_name soft_new].
    destruct (odefault MSummarize (w_method p)).
    - exists (VSum x). split; [reflexivity|]. rewrite vins_sum. exists x, rest. split; reflexivity.
    - exists (VSet x). split; [reflexivity|]. cbn [merged_samples]. destruct (vins_set rest x) as (l' & y & E & E'). exists l', y. split; assumption.
    - exists (VQuant (c_insert (c_new (fratio 1 1000)) x) x). split; [reflexivity|]. rewrite vins_quant. exists x, rest. split; reflexivity.
    - specialize (Hh eq_refl). unfold bounds_taken in Hh. destruct (h_new _) as [h|] eqn:E; [|congruence]. exists (VHist (h_insert h x)). split; [reflexivity|].
      rewrite vins_hist. exists h. split; [exact E|reflexivity]. }
  destruct G as (v & -> & Hv). cbv iota beta. rewrite insert_fold by reflexivity.
  eexists. split; [reflexivity|]. eexists. split; [reflexivity|]. cbn [t_name t_persist t_value t_tags t_override_count t_override_sum t_timestamp t_set_value t_set_tags].
  split; [reflexivity|]. split; [reflexivity|]. split; [exact Hv|]. split; [apply drain_are; assumption|]. split; [reflexivity|]. split; [reflexivity|].
  intros s H1 ->. apply ms_seconds_exact. assumption.
Qed.
Lemma line_event_ok l : tm_ok (wl_meta l) -> line_becomes l (line_event l).
Proof.
  intros H. eexists. split; [reflexivity|]. cbn. repeat (split; [reflexivity|]). split; [apply drain_are; assumption|].
  intros s H1 ->. apply ms_seconds_exact. assumption.
Qed.
Definition has_sample (p : wpoint) : bool := match w_samples p with [] => false | _ => true end.
Lemma point_events_ok now ps : Forall (fun p => tm_ok (w_meta p)) ps ->
  (forall p, In p ps -> odefault MSummarize (w_method p) = MHistogram -> bounds_taken) ->
  exists evs, point_events now ps = (evs, true) /\ Forall2 point_becomes (filter has_sample ps) evs.
Proof.
  induction ps as [|p ps IH]; intros H Hh.
  - exists []. split; [reflexivity|constructor].
  - inversion H; subst. destruct IH as (evs & E & F); [assumption|intros q Hq; apply Hh; right; exact Hq|].
    cbn [point_events filter]. destruct (has_sample p) eqn:Es.
    + destruct (point_event_ok now p) as (e & E1 & E2); [assumption|unfold has_sample in Es; destruct (w_samples p); congruence|apply Hh; left; reflexivity|].
      rewrite E1, E. exists (e :: evs). split; [reflexivity|]. constructor; assumption.
    + assert (Ep : point_event now p = Some []) by (unfold has_sample in Es; unfold point_event; destruct (w_samples p); [reflexivity|discriminate]).
      rewrite Ep, E. exists evs. split; [reflexivity|assumption].
Qed.

(** ** streams *)
Variable utf8 : list N -> bool.
Fixpoint consume (now : Z) (ps : list (list N)) (e : perr) : list event * hend :=
  match ps with
  | [] => ([], HStream e)
  | p :: r => match handle_payload utf8 now p with
              | (evs, NOk) => let '(evs', e') := consume now r e in (evs ++ evs', e')
              | (evs, NBad) => (evs, HParse)
              | (evs, NPanic) => (evs, HDied)
              end
  end.
Lemma native_loop_consume cap max now : forall fuel r,
  native_loop utf8 fuel cap max now r = consume now (fst (handle fuel cap max r)) (snd (handle fuel cap max r)).
Proof.
  induction fuel as [|fuel IH]; intros r; [reflexivity|]. cbn [native_loop handle]. destruct (read cap max r) as [[p|e] r'].
  - destruct (handle fuel cap max r') as [ps e'] eqn:E. cbn [fst snd consume]. rewrite IH, E. reflexivity.
  - destruct e; try reflexivity. apply IH.
Qed.
Lemma native_stream_consume cap max now sc ps e : handle_stream cap max sc = (ps, e) -> native_stream utf8 cap max now sc = consume now ps e.
Proof. unfold handle_stream, native_stream. intros H. rewrite native_loop_consume, H. reflexivity. Qed.
End Source.

(** ** the sink *)
Section Sink.
Context `{Q : QLib}.
Variable utf8 : list N -> bool.
Lemma collect_iter own d : otm_ok own -> tm_ok d -> collect_tags (tag_iter own d) = tag_iter own d.
Proof. intros H1 H2. unfold collect_tags. rewrite insert_all_fresh; [reflexivity|]. apply tag_iter_NoDup; assumption. Qed.
Definition all_ok (m : tagmap) : Prop := Forall (fun kv => string_ok utf8 (fst kv) /\ string_ok utf8 (snd kv)) m.
Lemma iter_defaults_incl d : forall seen x, In x (tag_iter_defaults seen d) -> In x d.
Proof. induction d as [|[k v] d IH]; intros seen x; cbn; [tauto|]. destruct (existsb (seqb k) seen); intros H; [right; apply (IH _ _ H)|]. destruct H as [H|H]; [left; exact H|right; apply (IH _ _ H)]. Qed.
Lemma iter_double_incl own d : forall seen x, In x (tag_iter_double seen own d) -> In x own \/ In x d.
Proof.
  induction own as [|[k v] own IH]; intros seen x; cbn.
  - intros H. right. apply (iter_defaults_incl d seen x H).
  - intros [H|H]; [left; left; exact H|]. destruct (IH _ _ H); tauto.
Qed.
Lemma iter_ok own d : tags_ok utf8 own -> meta_ok utf8 d -> meta_ok utf8 (tag_iter own d).
Proof.
  intros [H1 H2] [H3 H4]. split; [apply tag_iter_NoDup; assumption|]. apply Forall_forall. intros kv Hin. rewrite Forall_forall in H4.
  destruct own as [m|]; cbn in Hin; [|apply H4; exact Hin]. rewrite Forall_forall in H2. apply iter_double_incl in Hin as [Hin|Hin]; [apply H2|apply H4]; exact Hin.
Qed.
Lemma ts_ok ts : (Z.abs ts <= 2 ^ 43)%Z -> i64_ok (ts * 1000) /\ wrap64 (ts * 1000) = (ts * 1000)%Z.
Proof. intros H. assert (i64_ok (ts * 1000)) by (unfold i64_ok; lia). split; [assumption|]. apply wrap64_id. exact H0. Qed.
Lemma sink_point_ok d t : meta_ok utf8 d -> sendable utf8 (ETelemetry t) ->
  (N.of_nat (List.length (point_bytes (sink_point d t))) < 2 ^ 32)%N -> wpoint_ok utf8 (sink_point d t).
Proof.
  intros Hd (H1 & _ & _ & H2 & H3 & H4) HL. destruct (ts_ok _ H3) as [T1 T2].
  split; [exact H1|]. split; [exact H2|]. split; [cbn [w_meta sink_point]; rewrite collect_iter by (apply H4 || apply Hd); apply iter_ok; assumption|].
  split; [cbn [w_ts sink_point opt_ok]; rewrite T2; exact T1|]. split; [constructor|exact HL].
Qed.
Lemma sink_line_ok d l : meta_ok utf8 d -> sendable utf8 (ELog l) ->
  (N.of_nat (List.length (line_bytes (sink_line d l))) < 2 ^ 32)%N -> wline_ok utf8 (sink_line d l).
Proof.
  intros Hd (H1 & H2 & H3 & H4) HL. destruct (ts_ok _ H3) as [T1 T2].
  split; [exact H1|]. split; [exact H2|]. split; [cbn [wl_meta sink_line]; rewrite collect_iter by (apply H4 || apply Hd); apply iter_ok; assumption|].
  split; [cbn [wl_ts sink_line opt_ok]; rewrite T2; exact T1|exact HL].
Qed.
Definition batch_items (d : tagmap) (evs : list event) : list item := map IPoint (sink_points d evs) ++ map ILine (sink_lines d evs).
Lemma nested_right num p : (num < 16)%N -> (0 < num)%N -> nested_bytes num (N.of_nat (List.length p)) p = write_field (num, WLen p).
Proof. intros H1 H2. reflexivity. Qed.
Lemma point_size_fits p : count_fits (List.length (w_samples p)) -> point_size p = N.of_nat (List.length (point_bytes p)).
Proof. intros H. rewrite point_len, fits_extra by assumption. lia. Qed.
Lemma concat_len {A} (l : list (list A)) : N.of_nat (List.length (List.concat l)) = sumN (map (fun x => N.of_nat (List.length x)) l).
Proof. unfold sumN. induction l as [|x l IH]; cbn [List.concat map fold_right]; [reflexivity|]. rewrite app_length, Nat2N.inj_add, IH. reflexivity. Qed.
Lemma nested_len num size p : (0 < num < 16)%N -> N.of_nat (List.length (nested_bytes num size p)) = (1 + varint_size size + N.of_nat (List.length p))%N.
Proof. intros H. unfold nested_bytes. rewrite !app_length, tag_len by (assumption || lia). rewrite varint_size_len. lia. Qed.
Lemma map_ext_Forall {A B} (f g : A -> B) l : Forall (fun x => f x = g x) l -> map f l = map g l.
Proof. induction 1; cbn; congruence. Qed.
Lemma payload_right ps ls : Forall (fun p => count_fits (List.length (w_samples p))) ps ->
  payload_bytes ps ls = List.concat (map item_bytes (map IPoint ps ++ map ILine ls)) /\
  payload_size ps ls = N.of_nat (List.length (payload_bytes ps ls)).
Proof.
  intros H.
  assert (E1 : map (fun p => nested_bytes 2 (point_size p) (point_bytes p)) ps = map item_bytes (map IPoint ps)).
  { rewrite map_map. apply map_ext_Forall. eapply Forall_impl; [|exact H]. cbv beta. intros p Hp. rewrite point_size_fits by assumption. reflexivity. }
  assert (E2 : map (fun l => nested_bytes 3 (line_size l) (line_bytes l)) ls = map item_bytes (map ILine ls)).
  { rewrite map_map. apply map_ext. intros l. rewrite <- line_len. reflexivity. }
  split.
  - unfold payload_bytes. rewrite E1, E2, map_app, concat_app. reflexivity.
  - unfold payload_bytes, payload_size. rewrite app_length, Nat2N.inj_add, !concat_len, !map_map. f_equal; f_equal.
    + apply map_ext_Forall. eapply Forall_impl; [|exact H]. cbv beta. intros p Hp. rewrite nested_len by lia. unfold nested_size. rewrite point_size_fits by assumption. reflexivity.
    + apply map_ext. intros l. rewrite nested_len by lia. unfold nested_size. rewrite <- line_len. reflexivity.
Qed.
Lemma be4_32 n : be4 (N.of_nat n) = be32 n.
Proof. reflexivity. Qed.
Definition batch_payload (d : tagmap) (evs : list event) : list N := payload_bytes (sink_points d evs) (sink_lines d evs).
Lemma batch_counts d evs : Forall (fun e => count_fits (event_count e)) evs -> Forall (fun p => count_fits (List.length (w_samples p))) (sink_points d evs).
Proof.
  intros H. unfold sink_points. induction H as [|e evs He _ IH]; [constructor|]. cbn [flat_map]. destruct e; try exact IH. constructor; [exact He|exact IH].
Qed.
Lemma sink_frame_right d evs : Forall (fun e => count_fits (event_count e)) evs -> sink_frame d evs = frame (batch_payload d evs).
Proof.
  intros H. unfold sink_frame, frame, batch_payload. destruct (payload_right (sink_points d evs) (sink_lines d evs) (batch_counts d evs H)) as [_ ->]. reflexivity.
Qed.
Lemma item_bytes_in i is : In i is -> List.length (item_bytes i) <= List.length (List.concat (map item_bytes is)).
Proof. induction is as [|j is IH]; [intros []|]. intros [->|H]; cbn [map List.concat]; rewrite app_length; [lia|]. specialize (IH H). lia. Qed.
Lemma batch_ok d evs : meta_ok utf8 d -> Forall (sendable utf8) evs ->
  (N.of_nat (List.length (List.concat (map item_bytes (batch_items d evs)))) < 2 ^ 32)%N -> Forall (item_ok utf8) (batch_items d evs).
Proof.
  intros Hd H HL. apply Forall_forall. intros i Hi. pose proof (item_bytes_in i _ Hi) as Hl. unfold batch_items in Hi. rewrite Forall_forall in H.
  apply in_app_or in Hi as [Hi|Hi]; apply in_map_iff in Hi as (p & <- & Hp); [unfold sink_points in Hp|unfold sink_lines in Hp]; apply in_flat_map in Hp as (e & He & Hp);
    specialize (H e He); destruct e; cbn in Hp; try contradiction; destruct Hp as [<-|[]]; cbn [item_ok].
  - apply sink_point_ok; try assumption. cbn [item_bytes] in Hl. unfold write_field in Hl. cbn [fst snd] in Hl. rewrite !app_length in Hl. lia.
  - apply sink_line_ok; try assumption. cbn [item_bytes] in Hl. unfold write_field in Hl. cbn [fst snd] in Hl. rewrite !app_length in Hl. lia.
Qed.
Lemma items_points ps ls : item_points (map IPoint ps ++ map ILine ls) = ps /\ item_lines (map IPoint ps ++ map ILine ls) = ls.
Proof.
  unfold item_points, item_lines. rewrite !flat_map_app. assert (forall l, flat_map (fun i => match i with IPoint p => [p] | _ => [] end) (map ILine l) = [])
    by (induction l; [reflexivity|assumption]). assert (forall l, flat_map (fun i => match i with ILine p => [p] | _ => [] end) (map IPoint l) = []) by (induction l; [reflexivity|assumption]).
  rewrite H, H0, app_nil_r. cbn [List.app]. split; [induction ps|induction ls]; cbn; congruence.
Qed.
(** one batch is one payload that is read back *)
Lemma batch_parse d evs : meta_ok utf8 d -> Forall (sendable utf8) evs -> Forall (fun e => count_fits (event_count e)) evs ->
  (N.of_nat (List.length (batch_payload d evs)) < 2 ^ 32)%N ->
  parse_payload utf8 (batch_payload d evs) = Some (sink_points d evs, sink_lines d evs).
Proof.
  intros Hd H Hc HL. destruct (payload_right (sink_points d evs) (sink_lines d evs) (batch_counts d evs Hc)) as [E _]. unfold batch_payload in *. rewrite E in *.
  rewrite read_items by (apply batch_ok; assumption). destruct (items_points (sink_points d evs) (sink_lines d evs)) as [-> ->]. reflexivity.
Qed.
(** from the wire point of the sink to the event of the source *)
Lemma layered_iter own d m' : otm_ok own -> tm_ok d -> tags_are (tag_iter own d) m' -> tags_layered own d m'.
Proof.
  intros Ho Hd H k v. rewrite H. pose proof (tag_iter_NoDup own d Ho Hd) as N. rewrite <- (tag_iter_layered own d k v Ho Hd). unfold tm_get. split.
  - apply (alookup_In seqb seqb_eq).
  - apply (In_alookup seqb seqb_eq). exact N.
Qed.
Lemma single_last {A} l (x y : A) : [x] = l ++ [y] -> x = y.
Proof. intros E. destruct l as [|z l]; cbn in E; injection E; [tauto|]. intros E' _. destruct l; discriminate. Qed.
Lemma point_arrives d t e : meta_ok utf8 d -> sendable utf8 (ETelemetry t) -> point_becomes (sink_point d t) e -> arrives d (ETelemetry t) e.
Proof.
  intros Hd (H1 & Hk & Hs & H2 & H3 & H4) (t' & -> & E1 & E2 & E3 & E4 & _ & _ & E5). cbn [arrives]. cbn [w_name w_persisted w_method w_samples w_meta w_ts sink_point odefault] in *.
  split; [exact E1|].
  assert (G : t_kind t' = t_kind t /\ value_arrives (t_value t) (t_value t')).
  { unfold t_kind, t_samples in *. destruct (t_value t) as [x|x|h|c s]; cbn [value_kind] in *; [| |congruence|]; cbn [merged_samples] in E3.
    - destruct E3 as (l & y & E & ->). apply single_last in E as <-. split; reflexivity.
    - destruct E3 as (y & l & E & ->). injection E as <- <-. split; reflexivity.
    - destruct E3 as (y & l & E & ->). split; [reflexivity|]. exists y, l. split; [exact E|reflexivity]. }
  destruct G as [G1 G2]. split; [exact G1|]. split; [exact G2|]. split; [exact E2|].
  destruct (ts_ok _ H3) as [_ T]. split; [apply E5; [exact H3|exact T]|]. rewrite collect_iter in E4 by (apply H4 || apply Hd). apply layered_iter; [apply H4|apply Hd|exact E4].
Qed.
Lemma line_arrives d l e : meta_ok utf8 d -> sendable utf8 (ELog l) -> line_becomes (sink_line d l) e -> arrives d (ELog l) e.
Proof.
  intros Hd (H1 & H2 & H3 & H4) (l' & -> & E1 & E2 & _ & E4 & E5). cbn [arrives]. cbn [wl_path wl_value wl_meta wl_ts sink_line odefault] in *.
  split; [exact E1|]. split; [exact E2|]. destruct (ts_ok _ H3) as [_ T]. split; [apply E5; [exact H3|exact T]|].
  rewrite collect_iter in E4 by (apply H4 || apply Hd). apply layered_iter; [apply H4|apply Hd|exact E4].
Qed.
Lemma batch_points d evs out : meta_ok utf8 d -> Forall (sendable utf8) evs ->
  Forall2 point_becomes (filter has_sample (sink_points d evs)) out -> Forall2 (arrives d) (filter is_point evs) out.
Proof.
  intros Hd H. revert out. induction H as [|e evs He H IH]; intros out F; [inversion F; constructor|].
  cbn [filter is_point]. destruct e as [t|l| | |]; try exact (IH out F).
  change (sink_points d (ETelemetry t :: evs)) with (sink_point d t :: sink_points d evs) in F. cbn [filter] in F.
  assert (Es : has_sample (sink_point d t) = true). { unfold has_sample. cbn [w_samples sink_point]. destruct He as (_ & _ & Hs & _). destruct (t_samples t); [congruence|reflexivity]. }
  rewrite Es in F. inversion F as [|? e' ? out' F1 F2]; subst. constructor; [apply point_arrives; assumption|apply IH; assumption].
Qed.
Lemma batch_lines d evs : meta_ok utf8 d -> Forall (sendable utf8) evs ->
  Forall2 (arrives d) (filter is_line evs) (map line_event (sink_lines d evs)).
Proof.
  intros Hd H. induction H as [|e evs He H IH]; [constructor|]. cbn [filter is_line]. destruct e as [t|l| | |]; try exact IH.
  change (sink_lines d (ELog l :: evs)) with (sink_line d l :: sink_lines d evs). cbn [map]. constructor; [|exact IH].
  apply line_arrives; try assumption. apply line_event_ok. cbn [wl_meta sink_line]. destruct He as (_ & _ & _ & H4). rewrite collect_iter by (apply H4 || apply Hd). apply tag_iter_NoDup; [apply H4|apply Hd].
Qed.
Lemma batch_handled now d evs : meta_ok utf8 d -> Forall (sendable utf8) evs -> Forall (fun e => count_fits (event_count e)) evs ->
  (N.of_nat (List.length (batch_payload d evs)) < 2 ^ 32)%N ->
  exists out, handle_payload utf8 now (batch_payload d evs) = (out, NOk) /\ Forall2 (arrives d) (in_wire_order evs) out.
Proof.
  intros Hd H Hc HL. unfold handle_payload. rewrite batch_parse by assumption.
  destruct (point_events_ok now (sink_points d evs)) as (out & E & F).
  - unfold sink_points. clear -H Hd. induction H as [|e evs He H IH]; [constructor|]. cbn [flat_map]. destruct e as [t|l| | |]; try exact IH. constructor; [|exact IH].
    cbn [w_meta sink_point]. destruct He as (_ & _ & _ & _ & _ & H4). rewrite collect_iter by (apply H4 || apply Hd). apply tag_iter_NoDup; [apply H4|apply Hd].
  - intros p Hp. unfold sink_points in Hp. apply in_flat_map in Hp as (e & He & Hp). rewrite Forall_forall in H. specialize (H e He). destruct e; cbn in Hp; try contradiction. destruct Hp as [<-|[]].
    cbn. intros E. destruct H as (_ & Hk & _). congruence.
  - rewrite E. exists (out ++ map line_event (sink_lines d evs)). split; [reflexivity|]. unfold in_wire_order. apply Forall2_app; [apply batch_points; assumption|apply batch_lines; assumption].
Qed.

(** ** a point whose length is computed one byte too short *)
Lemma cut_point p z : w_bounds p = [] -> w_ts p = Some z -> (N.of_nat (List.length (point_bytes p)) < 2 ^ 32)%N -> 
  parse_fields (firstn (List.length (point_bytes p) - 1) (point_bytes p)) = None.
Proof.
  intros Hb Hz HL. pose proof (point_fields_ok utf8 p HL) as Hf. rewrite Hb in Hf. specialize (Hf (Forall_nil _)).
  set (fs := opt_field 1 string_field (w_name p) ++ samples_field (w_samples p) ++ opt_field 3 (fun b : bool => WVarint (if b then 1 else 0)) (w_persisted p) ++
    opt_field 4 (fun m => WVarint (method_num m)) (w_method p) ++ meta_fields 5 (w_meta p)).
  assert (Ef : point_fields p = fs ++ [(6%N, WVarint (u64_of z))]).
  { unfold point_fields, fs. rewrite Hb, Hz. cbn [opt_field map]. rewrite app_nil_r, <- !app_assoc. reflexivity. }
  rewrite Ef in Hf. apply Forall_app in Hf as [Hf _].
  assert (Ew : exists a x, write_varint (u64_of z) = a ++ [x]).
  { destruct (exists_last (l := write_varint (u64_of z))) as (a & x & E); [|exists a, x; exact E]. intros E. pose proof (varint_len 10 (u64_of z) ltac:(lia)). unfold write_varint in E. rewrite E in H. cbn in H. lia. }
  destruct Ew as (a & x & Ea).
  assert (Ep : point_bytes p = (List.concat (map write_field fs) ++ write_tag 6 0 ++ a) ++ [x]).
  { unfold point_bytes, fields_bytes. rewrite Ef, map_app, concat_app. cbn [map List.concat]. rewrite app_nil_r. unfold write_field at 2. cbn [fst snd wire_type]. rewrite Ea, <- !app_assoc. reflexivity. }
  rewrite Ep, app_length. cbn [List.length]. rewrite Nat.add_sub, firstn_app, Nat.sub_diag, firstn_O, app_nil_r, firstn_all.
  apply parse_fields_bad; [assumption|discriminate|]. apply (read_field_cut 6 (u64_of z) a [x]); [lia|assumption|discriminate].
Qed.
Lemma first_misfit (ps : list wpoint) : Forall (fun p => count_fits (List.length (w_samples p)) \/ count_misfits (List.length (w_samples p))) ps ->
  Exists (fun p => count_misfits (List.length (w_samples p))) ps ->
  exists g b r, ps = g ++ b :: r /\ Forall (fun p => count_fits (List.length (w_samples p))) g /\ count_misfits (List.length (w_samples b)).
Proof.
  intros H E. induction H as [|p ps Hp H IH]; [inversion E|].
  destruct (N.ltb_spec (samples_extra (List.length (w_samples p))) 1) as [L|L].
  - assert (Hf : count_fits (List.length (w_samples p))) by (destruct Hp as [Hp|Hp]; [exact Hp|pose proof (misfits_extra _ Hp); lia]).
    inversion E as [? ? Hx|? ? Hx]; subst; [pose proof (misfits_extra _ Hx); lia|]. destruct (IH Hx) as (g & b & r & -> & Hg & Hb). exists (p :: g), b, r. split; [reflexivity|]. split; [constructor; assumption|exact Hb].
  - exists [], p, ps. split; [reflexivity|]. split; [constructor|]. destruct Hp as [Hp|Hp]; [pose proof (fits_extra _ Hp); lia|exact Hp].
Qed.
Lemma firstn_app_ge {A} n (a b : list A) : List.length a <= n -> firstn n (a ++ b) = a ++ firstn (n - List.length a) b.
Proof. intros H. rewrite firstn_app, firstn_all2 by lia. reflexivity. Qed.
Lemma misfit_payload g b r ls z : Forall (wpoint_ok utf8) g -> Forall (fun p => count_fits (List.length (w_samples p))) g ->
  w_bounds b = [] -> w_ts b = Some z -> count_misfits (List.length (w_samples b)) ->
  (payload_size (g ++ b :: r) ls < 2 ^ 32 - 1)%N ->
  parse_payload utf8 (firstn (N.to_nat (payload_size (g ++ b :: r) ls)) (payload_bytes (g ++ b :: r) ls)) = None.
Proof.
  intros Hg Hgc Hb Hz Hm HS. set (S := payload_size (g ++ b :: r) ls) in *.
  set (more := List.concat (map (fun p => nested_bytes 2 (point_size p) (point_bytes p)) r) ++ List.concat (map (fun l => nested_bytes 3 (line_size l) (line_bytes l)) ls)).
  destruct (payload_right g [] Hgc) as [G1 G2]. unfold payload_bytes in G1, G2. cbn [map List.concat] in G1, G2. rewrite !app_nil_r in G1. rewrite app_nil_r in G2.
  assert (Ebytes : payload_bytes (g ++ b :: r) ls = List.concat (map item_bytes (map IPoint g)) ++ nested_bytes 2 (point_size b) (point_bytes b) ++ more).
  { unfold payload_bytes, more. rewrite map_app, concat_app, G1. cbn [map List.concat]. rewrite <- !app_assoc. reflexivity. }
  assert (Elen : N.of_nat (List.length (point_bytes b)) = (point_size b + 1)%N) by (rewrite point_len, misfits_extra by assumption; reflexivity).
  assert (ES : (S = payload_size g [] + nested_size (point_size b) + payload_size r ls)%N).
  { unfold S, payload_size. rewrite map_app, sumN_app. cbn [map]. unfold sumN. cbn [fold_right]. lia. }
  assert (Hbs : (point_size b + 1 < 2 ^ 32)%N) by (unfold nested_size in ES; pose proof (varint_pos (point_size b)); lia).
  set (cutb := firstn (List.length (point_bytes b) - 1) (point_bytes b)).
  assert (Ecl : N.of_nat (List.length cutb) = point_size b) by (unfold cutb; rewrite firstn_length; lia).
  assert (Lg : N.of_nat (List.length (List.concat (map item_bytes (map IPoint g)))) = payload_size g []) by (rewrite <- G1, <- G2; reflexivity).
  assert (Ecut : exists tl, firstn (N.to_nat S) (payload_bytes (g ++ b :: r) ls) = List.concat (map write_field (map item_field (map IPoint g) ++ [(2%N, WLen cutb)])) ++ tl).
  { rewrite Ebytes. assert (Eb : nested_bytes 2 (point_size b) (point_bytes b) ++ more = write_field (2%N, WLen cutb) ++ (skipn (List.length (point_bytes b) - 1) (point_bytes b) ++ more)).
    { unfold nested_bytes, write_field. cbn [fst snd wire_type]. rewrite Ecl, <- !app_assoc. do 2 f_equal. rewrite app_assoc. unfold cutb. rewrite firstn_skipn. reflexivity. }
    rewrite Eb, app_assoc. rewrite firstn_app_ge.
    - exists (firstn (N.to_nat S - List.length (List.concat (map item_bytes (map IPoint g)) ++ write_field (2%N, WLen cutb))) (skipn (List.length (point_bytes b) - 1) (point_bytes b) ++ more)).
      f_equal. rewrite map_app, concat_app. cbn [map List.concat]. rewrite app_nil_r. f_equal. rewrite !map_map. reflexivity.
    - rewrite app_length. pose proof (len_field_len 2 cutb ltac:(lia)) as Lw. rewrite Ecl in Lw. unfold nested_size in ES. lia. }
  destruct Ecut as (tl & ->). unfold parse_payload, read_message, parse_fields.
  assert (Hok : Forall field_ok (map item_field (map IPoint g) ++ [(2%N, WLen cutb)])).
  { apply Forall_app. split; [apply Forall_map, Forall_map; eapply Forall_impl; [|exact Hg]; intros p Hp; apply (item_field_ok utf8 (IPoint p)); exact Hp|].
    constructor; [|constructor]. split; [cbn; lia|]. cbn [snd wire_ok]. lia. }
  rewrite read_fields_app; [|assumption|pose proof (fields_long (map item_field (map IPoint g) ++ [(2%N, WLen cutb)])); rewrite (app_length (List.concat _) tl); lia].
  destruct (read_fields _ tl) as [fl|]; [|reflexivity]. rewrite <- app_assoc, merge_all_app, (merge_items utf8).
  - cbn [fst snd List.app merge_all]. unfold payload_field at 1. unfold read_message, cutb. rewrite (cut_point b z); [reflexivity|assumption|assumption|lia].
  - apply Forall_map. exact Hg.
Qed.
Lemma misfit_batch now d evs : meta_ok utf8 d -> Forall (sendable utf8) evs -> Forall (fun e => count_fits (event_count e) \/ count_misfits (event_count e)) evs ->
  Exists (fun e => count_misfits (event_count e)) evs -> (payload_size (sink_points d evs) (sink_lines d evs) < 2 ^ 32 - 1)%N ->
  handle_payload utf8 now (firstn (N.to_nat (payload_size (sink_points d evs) (sink_lines d evs))) (batch_payload d evs)) = ([], NBad).
Proof.
  intros Hd H Hc He HS.
  destruct (first_misfit (sink_points d evs)) as (g & b & r & E & Hg & Hb).
  - unfold sink_points. clear -Hc. induction Hc as [|e evs He _ IH]; [constructor|]. cbn [flat_map]. destruct e; try exact IH. constructor; [exact He|exact IH].
  - unfold sink_points. clear -He. induction He as [e evs He|e evs _ IH]; cbn [flat_map].
    + destruct e; try (unfold count_misfits in He; cbn [event_count] in He; lia). left. exact He.
    + apply Exists_exists in IH as (x & Hx & Hx'). apply Exists_exists. exists x. split; [apply in_or_app; right; exact Hx|exact Hx'].
  - assert (Hin : forall p, In p (g ++ [b]) -> exists t, p = sink_point d t /\ sendable utf8 (ETelemetry t)).
    { intros p Hp. assert (Hp' : In p (sink_points d evs)) by (rewrite E; apply in_app_or in Hp; apply in_or_app; cbn in Hp |- *; tauto).
      unfold sink_points in Hp'. apply in_flat_map in Hp' as (e & He1 & Hp'). rewrite Forall_forall in H. specialize (H e He1). destruct e as [t| | | |]; cbn in Hp'; try contradiction. destruct Hp' as [<-|[]]. exists t. split; [reflexivity|exact H]. }
    destruct (Hin b) as (tb & Etb & Htb); [apply in_or_app; right; left; reflexivity|].
    unfold handle_payload, batch_payload. rewrite E in *. rewrite (misfit_payload g b r (sink_lines d evs) (wrap64 (t_timestamp tb * 1000))); [reflexivity| |assumption|rewrite Etb; reflexivity|rewrite Etb; reflexivity|assumption|lia].
    apply Forall_forall. intros p Hp. destruct (Hin p) as (t & -> & Ht); [apply in_or_app; left; exact Hp|]. apply sink_point_ok; try assumption.
    rewrite Forall_forall in Hg. specialize (Hg _ Hp). rewrite <- point_size_fits by exact Hg.
    assert (In (nested_size (point_size (sink_point d t))) (map (fun p => nested_size (point_size p)) (g ++ b :: r))) by (apply in_map_iff; exists (sink_point d t); split; [reflexivity|apply in_or_app; left; exact Hp]).
    assert (Hs : forall x l, In x l -> (x <= sumN l)%N) by (clear; intros x l; unfold sumN; induction l as [|y l IH]; cbn; [tauto|]; intros [->|H]; [lia|specialize (IH H); lia]).
    specialize (Hs _ _ H0). unfold payload_size in HS. unfold nested_size in Hs at 1. lia.
Qed.
End Sink.
