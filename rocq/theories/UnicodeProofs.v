From Verif Require Import Base Utf8 UnicodeSpec.
From Coq Require Import Lia ZifyN.
Open Scope list_scope. Open Scope N_scope.
Local Ltac Zify.zify_post_hook ::= Z.div_mod_to_equations.

Lemma divmod : forall c k a b, c = k * a + b -> b < k -> c / k = a /\ c mod k = b.
Proof. intros c k a b E L. split; [symmetry; apply (N.div_unique c k a b L E)|symmetry; apply (N.mod_unique c k a b L E)]. Qed.

Ltac lits := repeat match goal with
  | |- context [N.ltb ?a ?b] => let E := fresh in destruct (N.ltb_spec a b) as [E|E]; try lia
  | |- context [N.eqb ?a ?b] => let E := fresh in destruct (N.eqb_spec a b) as [E|E]; try lia
  | |- context [N.leb ?a ?b] => let E := fresh in destruct (N.leb_spec a b) as [E|E]; try lia
  end.

Lemma uscan_encode : forall c r, scalar c -> uscan [] (encode c ++ r) = uscan [] r.
Proof.
  intros c r S. unfold scalar in S. unfold encode.
  destruct (N.ltb_spec c 0x80); [cbn [app uscan]; unfold follow; lits; reflexivity|].
  destruct (N.ltb_spec c 0x800).
  { cbn [app uscan]. unfold follow. assert (2 <= c / 64 < 32) by lia. assert (c mod 64 < 64) by lia. generalize dependent (c / 64). generalize dependent (c mod 64). intros.
    lits; cbn [uscan]; lits; cbn [andb]; reflexivity. }
  destruct (N.ltb_spec c 0x10000).
  { cbn [app uscan]. unfold follow.
    assert (c / 4096 < 16) by lia. assert (c / 4096 = 0 -> 32 <= c / 64 mod 64) by lia. assert (c / 4096 = 13 -> c / 64 mod 64 < 32) by lia.
    assert (c / 64 mod 64 < 64) by lia. assert (c mod 64 < 64) by lia.
    generalize dependent (c / 64 mod 64). generalize dependent (c mod 64). generalize dependent (c / 4096). intros.
    lits; cbn [uscan]; lits; cbn [andb uscan]; lits; reflexivity. }
  cbn [app uscan]. unfold follow.
  assert (c / 262144 < 5) by lia. assert (c / 262144 = 0 -> 16 <= c / 4096 mod 64) by lia. assert (c / 262144 = 4 -> c / 4096 mod 64 < 16) by lia.
  assert (c / 4096 mod 64 < 64) by lia. assert (c / 64 mod 64 < 64) by lia. assert (c mod 64 < 64) by lia.
  generalize dependent (c / 64 mod 64). generalize dependent (c mod 64). generalize dependent (c / 4096 mod 64). generalize dependent (c / 262144). intros.
  lits; cbn [uscan]; lits; cbn [andb uscan]; lits; cbn [andb uscan]; lits; reflexivity.
Qed.
Lemma encoded_utf8 : forall cs, Forall scalar cs -> utf8 (encoded cs) = true.
Proof.
  intros cs F. apply utf8_iff. induction F as [|c cs S F IH]; [reflexivity|]. cbn [encoded flat_map]. rewrite (uscan_encode c _ S). exact IH.
Qed.

Lemma encode1 : forall b, b < 128 -> encode b = [b].
Proof. intros b H. unfold encode. lits. reflexivity. Qed.
Lemma encode2 : forall b x, 194 <= b < 224 -> 128 <= x <= 191 -> let c := (b - 192) * 64 + (x - 128) in scalar c /\ encode c = [b; x].
Proof.
  intros b x Hb Hx c. assert (c / 64 = b - 192 /\ c mod 64 = x - 128) as [D M] by (apply divmod; unfold c; lia).
  split; [unfold scalar; unfold c; lia|]. unfold encode. rewrite D, M. destruct (N.ltb_spec c 0x80); [unfold c in *; lia|]. destruct (N.ltb_spec c 0x800); [|unfold c in *; lia].
  repeat f_equal; lia.
Qed.
Lemma encode3 : forall b x y, 224 <= b < 240 -> 128 <= x <= 191 -> 128 <= y <= 191 -> (b = 224 -> 160 <= x) -> (b = 237 -> x <= 159) ->
  let c := (b - 224) * 4096 + (x - 128) * 64 + (y - 128) in scalar c /\ encode c = [b; x; y].
Proof.
  intros b x y Hb Hx Hy H1 H2 c.
  assert (c / 4096 = b - 224 /\ c mod 4096 = (x - 128) * 64 + (y - 128)) as [D3 _] by (apply divmod; unfold c; lia).
  assert (c / 64 = (b - 224) * 64 + (x - 128) /\ c mod 64 = y - 128) as [D M] by (apply divmod; unfold c; lia).
  assert (c / 64 / 64 = b - 224 /\ c / 64 mod 64 = x - 128) as [_ M2] by (apply divmod; rewrite ?D; lia).
  split; [unfold scalar; unfold c; lia|]. unfold encode. rewrite D3, M2, M.
  destruct (N.ltb_spec c 0x80); [unfold c in *; lia|]. destruct (N.ltb_spec c 0x800); [unfold c in *; lia|]. destruct (N.ltb_spec c 0x10000); [|unfold c in *; lia].
  repeat f_equal; lia.
Qed.
Lemma encode4 : forall b x y z, 240 <= b <= 244 -> 128 <= x <= 191 -> 128 <= y <= 191 -> 128 <= z <= 191 -> (b = 240 -> 144 <= x) -> (b = 244 -> x <= 143) ->
  let c := (b - 240) * 262144 + (x - 128) * 4096 + (y - 128) * 64 + (z - 128) in scalar c /\ encode c = [b; x; y; z].
Proof.
  intros b x y z Hb Hx Hy Hz H1 H2 c.
  assert (c / 262144 = b - 240 /\ c mod 262144 = (x - 128) * 4096 + (y - 128) * 64 + (z - 128)) as [D4 _] by (apply divmod; unfold c; lia).
  assert (c / 4096 = (b - 240) * 64 + (x - 128) /\ c mod 4096 = (y - 128) * 64 + (z - 128)) as [D3 _] by (apply divmod; unfold c; lia).
  assert (c / 64 = (b - 240) * 4096 + (x - 128) * 64 + (y - 128) /\ c mod 64 = z - 128) as [D M] by (apply divmod; unfold c; lia).
  assert (c / 64 / 64 = (b - 240) * 64 + (x - 128) /\ c / 64 mod 64 = y - 128) as [_ M2] by (apply divmod; rewrite ?D; lia).
  assert (c / 4096 / 64 = b - 240 /\ c / 4096 mod 64 = x - 128) as [_ M3] by (apply divmod; rewrite ?D3; lia).
  split; [unfold scalar; unfold c; lia|]. unfold encode. rewrite D4, M3, M2, M.
  destruct (N.ltb_spec c 0x80); [unfold c in *; lia|]. destruct (N.ltb_spec c 0x800); [unfold c in *; lia|]. destruct (N.ltb_spec c 0x10000); [unfold c in *; lia|].
  repeat f_equal; lia.
Qed.

(** the characters of a text *)
Lemma utf8_head : forall b r, uscan [] (b :: r) = Some [] -> exists c r', scalar c /\ b :: r = encode c ++ r' /\ uscan [] r' = Some [].
Proof.
  intros b r H. cbn [uscan] in H. unfold follow in H.
  destruct (N.ltb_spec b 128). { exists b, r. split; [unfold scalar; lia|]. rewrite encode1 by assumption. now split. }
  destruct (N.ltb_spec b 194); [discriminate|].
  destruct (N.ltb_spec b 224).
  { destruct r as [|x r]; [discriminate|]. cbn [uscan] in H. destruct (N.leb_spec 128 x), (N.leb_spec x 191); try discriminate. cbn [andb] in H.
    destruct (encode2 b x) as [S E]; try lia. eexists _, r. split; [exact S|]. rewrite E. now split. }
  assert (T3 : forall lo hi, 128 <= lo -> hi <= 191 -> (b = 224 -> 160 <= lo) -> (b = 237 -> hi <= 159) -> 224 <= b < 240 -> uscan [(lo, hi); (128, 191)] r = Some [] ->
    exists c r', scalar c /\ b :: r = encode c ++ r' /\ uscan [] r' = Some []).
  { intros lo hi L1 L2 L3 L4 Lb U. destruct r as [|x [|y r]]; cbn [uscan] in U; [discriminate|destruct (_ && _)%bool in U; discriminate|].
    destruct (N.leb_spec lo x), (N.leb_spec x hi); try discriminate. cbn [andb] in U. destruct (N.leb_spec 128 y), (N.leb_spec y 191); try discriminate. cbn [andb] in U.
    destruct (encode3 b x y) as [S E]; try lia. eexists _, r. split; [exact S|]. rewrite E. now split. }
  assert (T4 : forall lo hi, 128 <= lo -> hi <= 191 -> (b = 240 -> 144 <= lo) -> (b = 244 -> hi <= 143) -> 240 <= b <= 244 -> uscan [(lo, hi); (128, 191); (128, 191)] r = Some [] ->
    exists c r', scalar c /\ b :: r = encode c ++ r' /\ uscan [] r' = Some []).
  { intros lo hi L1 L2 L3 L4 Lb U.
    destruct r as [|x r]; [discriminate|]. cbn [uscan] in U. destruct (N.leb_spec lo x), (N.leb_spec x hi); try discriminate. cbn [andb] in U.
    destruct r as [|y r]; [discriminate|]. cbn [uscan] in U. destruct (N.leb_spec 128 y), (N.leb_spec y 191); try discriminate. cbn [andb] in U.
    destruct r as [|z r]; [discriminate|]. cbn [uscan] in U. destruct (N.leb_spec 128 z), (N.leb_spec z 191); try discriminate. cbn [andb] in U.
    destruct (encode4 b x y z) as [S E]; try lia. eexists _, r. split; [exact S|]. rewrite E. now split. }
  destruct (N.eqb_spec b 224); [apply (T3 160 191); try exact H; lia|].
  destruct (N.eqb_spec b 237); [apply (T3 128 159); try exact H; lia|].
  destruct (N.ltb_spec b 240); [apply (T3 128 191); try exact H; lia|].
  destruct (N.eqb_spec b 240); [apply (T4 144 191); try exact H; lia|].
  destruct (N.ltb_spec b 244); [apply (T4 128 191); try exact H; lia|].
  destruct (N.eqb_spec b 244); [apply (T4 128 143); try exact H; lia|discriminate].
Qed.
Lemma encode_nonempty : forall c, encode c <> [].
Proof. intros c. unfold encode. repeat match goal with |- context [if ?b then _ else _] => destruct b end; discriminate. Qed.
Lemma utf8_encoded : forall bs, utf8 bs = true -> exists cs, Forall scalar cs /\ bs = encoded cs.
Proof.
  intros bs H. apply utf8_iff in H. revert H. induction bs as [bs IH] using (induction_ltof1 _ (@List.length N)). unfold ltof in IH. intros H.
  destruct bs as [|b r]; [exists []; split; [constructor|reflexivity]|]. destruct (utf8_head b r H) as (c & r' & S & E & U).
  destruct (IH r') as (cs & F & ->); [|exact U|].
  { rewrite E, app_length. pose proof (encode_nonempty c). destruct (encode c); [congruence|cbn; lia]. }
  exists (c :: cs). split; [constructor; assumption|exact E].
Qed.

(** a text is the encoding of one list of characters *)
Lemma encode_forms : forall c, scalar c ->
  (c < 128 /\ encode c = [c]) \/
  (exists x y, encode c = [192 + x; 128 + y] /\ x < 32 /\ y < 64 /\ c = 64 * x + y) \/
  (exists x y z, encode c = [224 + x; 128 + y; 128 + z] /\ x < 16 /\ y < 64 /\ z < 64 /\ c = 64 * (64 * x + y) + z) \/
  (exists x y z w, encode c = [240 + x; 128 + y; 128 + z; 128 + w] /\ y < 64 /\ z < 64 /\ w < 64 /\ c = 64 * (64 * (64 * x + y) + z) + w).
Proof.
  intros c S. unfold scalar in S. unfold encode.
  assert (E1 := N.div_mod c 64 ltac:(lia)). assert (M1 := N.mod_lt c 64 ltac:(lia)).
  assert (E2 := N.div_mod (c / 64) 64 ltac:(lia)). assert (M2 := N.mod_lt (c / 64) 64 ltac:(lia)).
  assert (E3 := N.div_mod (c / 64 / 64) 64 ltac:(lia)). assert (M3 := N.mod_lt (c / 64 / 64) 64 ltac:(lia)).
  rewrite !N.div_div in * by lia. change (64 * 64) with 4096 in *. change (4096 * 64) with 262144 in *.
  generalize dependent (c mod 64). generalize dependent (c / 64 mod 64). generalize dependent (c / 4096 mod 64). generalize dependent (c / 262144). generalize dependent (c / 4096).
  generalize dependent (c / 64). intros a a2 a3 m2 E3 M3 m1 E2 M2 m0 E1 M1.
  destruct (N.ltb_spec c 0x80); [left; now split|]. right. destruct (N.ltb_spec c 0x800); [left; exists a, m0; repeat split; lia|]. right.
  destruct (N.ltb_spec c 0x10000); [left; exists a2, m1, m0; repeat split; lia|]. right. exists a3, m2, m1, m0; repeat split; lia.
Qed.
Lemma encode_inj : forall c c' r r', scalar c -> scalar c' -> encode c ++ r = encode c' ++ r' -> c = c' /\ r = r'.
Proof.
  intros c c' r r' S S'. apply encode_forms in S, S'.
  destruct S as [[L ->]|[(x & y & -> & ? & ? & Ec)|[(x & y & z & -> & ? & ? & ? & Ec)|(x & y & z & w & -> & ? & ? & ? & Ec)]]];
  destruct S' as [[L' ->]|[(x' & y' & -> & ? & ? & Ec')|[(x' & y' & z' & -> & ? & ? & ? & Ec')|(x' & y' & z' & w' & -> & ? & ? & ? & Ec')]]];
    cbn [app]; intros E; injection E; intros; try (split; [lia|assumption]); exfalso; lia.
Qed.
Lemma encoded_inj : forall cs cs', Forall scalar cs -> Forall scalar cs' -> encoded cs = encoded cs' -> cs = cs'.
Proof.
  induction cs as [|c cs IH]; intros [|c' cs'] F F' E; [reflexivity| | |].
  - cbn in E. pose proof (encode_nonempty c'). destruct (encode c'); [congruence|discriminate].
  - cbn in E. pose proof (encode_nonempty c). destruct (encode c); [congruence|discriminate].
  - inversion F; inversion F'; subst. cbn [encoded flat_map] in E. apply encode_inj in E as [-> E]; [|assumption|assumption]. f_equal. now apply IH.
Qed.
