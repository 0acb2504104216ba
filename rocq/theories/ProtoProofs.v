(** * The wire format can be read back. *)
From Verif Require Import Base BaseFacts FloatFacts ProtoModel.
Open Scope string_scope. Open Scope list_scope. Open Scope nat_scope.

Lemma bstring_sbytes s : bstring (sbytes s) = s.
Proof. induction s as [|c s IH]; cbn; [reflexivity|]. rewrite ascii_N_embedding, IH. reflexivity. Qed.
Lemma sbytes_len s : List.length (sbytes s) = String.length s.
Proof. induction s as [|c s IH]; cbn; [reflexivity|]. rewrite IH. reflexivity. Qed.
Lemma sbytes_bytes s : Forall (fun b => (b < 256)%N) (sbytes s).
Proof. induction s as [|c s IH]; cbn; constructor; [apply N_ascii_bounded|assumption]. Qed.

Lemma unvarint_varint fuel : forall n r, (n < 128 ^ N.of_nat (S fuel))%N -> unvarint (S fuel) (varint (S fuel) n ++ r) = Some (n, r).
Proof.
  induction fuel as [|fuel IH]; intros n r H; rewrite Nat2N.inj_succ, N.pow_succ_r in H by lia.
  - rewrite N.mul_1_r in H. cbn [varint unvarint]. destruct (N.ltb_spec n 128) as [L|L]; [|lia].
    cbn [List.app]. destruct (N.ltb_spec n 128); [reflexivity|lia].
  - set (g := S fuel) in *. cbn [varint unvarint]. destruct (N.ltb_spec n 128) as [L|L].
    + cbn [List.app]. destruct (N.ltb_spec n 128); [reflexivity|lia].
    + cbn [List.app]. pose proof (N.mod_lt n 128 ltac:(lia)). destruct (N.ltb_spec (n mod 128 + 128) 128); [lia|].
      rewrite IH.
      * f_equal. f_equal. replace ((n mod 128 + 128) mod 128)%N with (n mod 128)%N by (apply (N.mod_unique _ 128 1); lia).
        pose proof (N.div_mod n 128 ltac:(lia)). lia.
      * apply N.div_lt_upper_bound; lia.
Qed.
Lemma read_varint64_write n r : (n < 2 ^ 64)%N -> read_varint64 (write_varint n ++ r) = Some (n, r).
Proof.
  intros H. unfold read_varint64, write_varint. rewrite unvarint_varint.
  - rewrite N.mod_small by assumption. reflexivity.
  - change (128 ^ N.of_nat 10)%N with (2 ^ 70)%N. lia.
Qed.
Lemma read_varint32_write n r : (n < 2 ^ 32)%N -> read_varint32 (write_varint n ++ r) = Some (n, r).
Proof.
  intros H. unfold read_varint32, write_varint. rewrite unvarint_varint.
  - rewrite N.mod_small by assumption. reflexivity.
  - change (128 ^ N.of_nat 10)%N with (2 ^ 70)%N. lia.
Qed.
(** a varint cut short cannot be read *)
Lemma varint_cut fuel : forall n a b, varint fuel n = a ++ b -> b <> [] -> unvarint fuel a = None.
Proof.
  induction fuel as [|fuel IH]; intros n a b E Hb; [reflexivity|]. cbn [varint] in E. destruct (N.ltb_spec n 128) as [L|L].
  - destruct a as [|x a]; [reflexivity|]. injection E as <- E. apply Logic.eq_sym, app_eq_nil in E as [_ ->]. contradiction.
  - destruct a as [|x a]; [reflexivity|]. injection E as <- E. cbn [unvarint].
    pose proof (N.mod_lt n 128 ltac:(lia)). destruct (N.ltb_spec (n mod 128 + 128) 128); [lia|]. rewrite (IH _ _ _ E Hb). reflexivity.
Qed.
Lemma varint_len fuel n : 0 < fuel -> 0 < List.length (varint fuel n).
Proof. destruct fuel; [lia|]. cbn [varint]. destruct (n <? 128)%N; cbn; lia. Qed.
Lemma varint_small n : (n < 128)%N -> write_varint n = [n].
Proof. intros H. unfold write_varint. cbn [varint]. destruct (N.ltb_spec n 128); [reflexivity|lia]. Qed.
Lemma varint_bytes fuel : forall n, Forall (fun b => (b < 256)%N) (varint fuel n).
Proof.
  induction fuel as [|fuel IH]; intros n; cbn [varint]; [constructor|]. pose proof (N.mod_lt n 128 ltac:(lia)).
  destruct (N.ltb_spec n 128); constructor; try constructor; try lia. apply IH.
Qed.

Lemma le_bytes_len k : forall n, List.length (le_bytes k n) = k.
Proof. induction k; intros n; cbn; [reflexivity|]. rewrite IHk. reflexivity. Qed.
Lemma le_num_bytes k : forall n, (n < 256 ^ N.of_nat k)%N -> le_num (le_bytes k n) = n.
Proof.
  induction k as [|k IH]; intros n H.
  - cbn in *. lia.
  - cbn [le_bytes le_num]. rewrite IH.
    + pose proof (N.div_mod n 256 ltac:(lia)). lia.
    + rewrite Nat2N.inj_succ, N.pow_succ_r in H by lia. apply N.div_lt_upper_bound; lia.
Qed.
Lemma take_app a b : take (List.length a) (a ++ b) = Some (a, b).
Proof.
  unfold take. rewrite app_length. destruct (Nat.ltb_spec (List.length a + List.length b) (List.length a)); [lia|].
  rewrite firstn_app, firstn_all, Nat.sub_diag, firstn_O, app_nil_r, skipn_app, skipn_all, Nat.sub_diag. reflexivity.
Qed.
Lemma take_app_n n a b : List.length a = n -> take n (a ++ b) = Some (a, b).
Proof. intros <-. apply take_app. Qed.

(** a field that can be on the wire *)
Definition wire_ok (w : wire) : Prop :=
  match w with
  | WVarint n | WFixed64 n => (n < 2 ^ 64)%N
  | WLen bs => (N.of_nat (List.length bs) < 2 ^ 32)%N
  | WFixed32 n => (n < 2 ^ 32)%N
  end.
Definition field_ok (f : N * wire) : Prop := (0 < fst f < 2 ^ 29)%N /\ wire_ok (snd f).

Lemma tag_parts num wt : (wt < 8)%N -> ((num * 8 + wt) / 8 = num /\ (num * 8 + wt) mod 8 = wt)%N.
Proof. intros H. split; symmetry; [apply (N.div_unique _ 8 _ wt)|apply (N.mod_unique _ 8 num)]; lia. Qed.
Lemma wire_type_lt w : (wire_type w < 8)%N.
Proof. destruct w; cbn; lia. Qed.
Lemma read_tag num wt r : (0 < num < 2 ^ 29)%N -> (wt < 8)%N ->
  read_varint32 (write_tag num wt ++ r) = Some ((num * 8 + wt)%N, r).
Proof. intros H1 H2. apply read_varint32_write. lia. Qed.
Theorem read_write_field f r : field_ok f -> read_field (write_field f ++ r) = Some (f, r).
Proof.
  destruct f as [num w]. intros [Hn Hw]. cbn [fst snd] in *. unfold write_field, read_field. cbn [fst snd].
  rewrite <- app_assoc, read_tag by (assumption || apply wire_type_lt).
  destruct (tag_parts num (wire_type w) (wire_type_lt w)) as [-> ->].
  destruct (N.eqb_spec num 0); [lia|]. destruct w as [n0|n0|bs|n0]; cbn [wire_type wire_ok] in *.
  - rewrite read_varint64_write by assumption. reflexivity.
  - rewrite take_app_n by apply le_bytes_len. rewrite le_num_bytes; [reflexivity|]. exact Hw.
  - rewrite <- app_assoc, read_varint32_write by assumption. rewrite Nat2N.id, take_app. reflexivity.
  - rewrite take_app_n by apply le_bytes_len. rewrite le_num_bytes; [reflexivity|]. exact Hw.
Qed.
Lemma write_field_nonempty f : write_field f <> [].
Proof.
  unfold write_field, write_tag, write_varint. intros E. apply app_eq_nil in E as [E _].
  pose proof (varint_len 10 (fst f * 8 + wire_type (snd f)) ltac:(lia)). rewrite E in H. cbn in H. lia.
Qed.
Lemma read_fields_app fs : forall rest fuel, Forall field_ok fs -> List.length fs <= fuel ->
  read_fields fuel (List.concat (map write_field fs) ++ rest) =
  match read_fields (fuel - List.length fs) rest with Some l => Some (fs ++ l) | None => None end.
Proof.
  induction fs as [|f fs IH]; intros rest fuel H L.
  - cbn [map List.concat List.app List.length]. rewrite Nat.sub_0_r. destruct (read_fields fuel rest); reflexivity.
  - inversion H as [|? ? Hf Hfs]; subst. cbn [map List.concat List.length] in *. rewrite <- app_assoc.
    destruct fuel as [|fuel]; [lia|]. cbn [read_fields]. rewrite read_write_field by assumption.
    destruct (write_field f) eqn:E; [exfalso; exact (write_field_nonempty f E)|]. cbn [List.app].
    rewrite IH by (assumption || lia). cbn [Nat.sub]. destruct (read_fields (fuel - List.length fs) rest); reflexivity.
Qed.
Lemma fields_long fs : List.length fs <= List.length (List.concat (map write_field fs)).
Proof.
  induction fs as [|f fs IH]; cbn [map List.concat List.length]; [lia|]. rewrite app_length.
  pose proof (write_field_nonempty f). destruct (write_field f); [congruence|cbn; lia].
Qed.
Theorem parse_write_fields fs : Forall field_ok fs -> parse_fields (List.concat (map write_field fs)) = Some fs.
Proof.
  intros H. unfold parse_fields. rewrite <- (app_nil_r (List.concat _)) at 2. rewrite read_fields_app; [|assumption|pose proof (fields_long fs); lia].
  pose proof (fields_long fs). replace (1 + List.length (List.concat (map write_field fs)) - List.length fs) with (S (List.length (List.concat (map write_field fs)) - List.length fs)) by lia.
  cbn [read_fields]. rewrite app_nil_r. reflexivity.
Qed.
(** fields followed by something that cannot be read *)
Lemma read_fields_bad fs bad : forall fuel, Forall field_ok fs -> bad <> [] -> read_field bad = None ->
  read_fields fuel (List.concat (map write_field fs) ++ bad) = None.
Proof.
  induction fs as [|f fs IH]; intros [|fuel] H Hb E; try reflexivity.
  - cbn [map List.concat List.app read_fields]. destruct bad; [contradiction|]. rewrite E. reflexivity.
  - inversion H; subst. cbn [map List.concat]. rewrite <- app_assoc. cbn [read_fields]. rewrite read_write_field by assumption.
    destruct (write_field f) eqn:Ew; [exfalso; exact (write_field_nonempty f Ew)|]. cbn [List.app]. rewrite IH by assumption. reflexivity.
Qed.
Lemma parse_fields_bad fs bad : Forall field_ok fs -> bad <> [] -> read_field bad = None ->
  parse_fields (List.concat (map write_field fs) ++ bad) = None.
Proof. intros. apply read_fields_bad; assumption. Qed.
(** a field holding a varint, without its last byte *)
Lemma read_field_cut num n a b : (0 < num < 2 ^ 29)%N -> write_varint n = a ++ b -> b <> [] ->
  read_field (write_tag num 0 ++ a) = None.
Proof.
  intros Hn E Hb. unfold read_field. rewrite read_tag by (assumption || lia). destruct (tag_parts num 0 ltac:(lia)) as [-> ->].
  destruct (N.eqb_spec num 0); [lia|]. unfold read_varint64. rewrite (varint_cut 10 n a b E Hb). reflexivity.
Qed.

(** ** doubles *)
Lemma write_double_len x : List.length (write_double x) = 8.
Proof. apply le_bytes_len. Qed.
Lemma fbits_N x : f_ok x -> (Z.to_N (fbits x) < 2 ^ 64)%N /\ read_double (Z.to_N (fbits x)) = x.
Proof.
  intros H. destruct (fbits_spec x H) as [B E]. split; [lia|]. unfold read_double. rewrite Z2N.id by lia. exact E.
Qed.
Lemma read_write_double x : f_ok x -> read_double (le_num (write_double x)) = x.
Proof. intros H. destruct (fbits_N x H) as [B E]. unfold write_double. rewrite le_num_bytes by exact B. exact E. Qed.
Lemma doubles_len l : List.length (List.concat (map write_double l)) = 8 * List.length l.
Proof. induction l as [|x l IH]; cbn [map List.concat List.length]; [reflexivity|]. rewrite app_length, write_double_len, IH. lia. Qed.
Lemma read_packed_write l : forall fuel, Forall f_ok l -> List.length l < fuel -> read_packed fuel (List.concat (map write_double l)) = Some l.
Proof.
  induction l as [|x l IH]; intros [|fuel] H L; try (cbn in L; lia); [reflexivity|].
  inversion H; subst. cbn [map List.concat read_packed]. destruct (write_double x ++ List.concat (map write_double l)) eqn:E.
  - apply app_eq_nil in E as [E _]. apply (f_equal (@List.length N)) in E. rewrite write_double_len in E. discriminate.
  - rewrite <- E. rewrite take_app_n by apply write_double_len. rewrite IH by (assumption || (cbn in L; lia)). rewrite read_write_double by assumption. reflexivity.
Qed.
(** ** integers *)
Lemma i64_u64 z : (-2 ^ 63 <= z < 2 ^ 63)%Z -> i64_of (u64_of z) = z /\ (u64_of z < 2 ^ 64)%N.
Proof.
  intros H. unfold i64_of, u64_of. pose proof (Z.mod_pos_bound z (2 ^ 64) ltac:(lia)) as B. rewrite Z2N.id by lia. split; [|lia].
  destruct (Z_le_gt_dec 0 z) as [P|P].
  - rewrite Z.mod_small by lia. destruct (Z.ltb_spec z (2 ^ 63)); lia.
  - replace (z mod 2 ^ 64)%Z with (z + 2 ^ 64)%Z by (apply (Z.mod_unique _ _ (-1)); lia). destruct (Z.ltb_spec (z + 2 ^ 64) (2 ^ 63)); lia.
Qed.
