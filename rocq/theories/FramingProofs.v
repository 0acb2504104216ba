(** * Proofs about length-prefixed framing. *)
From Verif Require Import Base BaseFacts FramingModel FramingSpec.
Open Scope list_scope. Open Scope nat_scope.

(** every WouldBlock happens at an offset satisfying [P]; [k] is the offset of the
    first byte of the script *)
Fixpoint cuts (P : nat -> Prop) (k : nat) (sc : list arrival) : Prop :=
  match sc with
  | [] => True
  | AData bs :: r => cuts P (k + List.length bs) r
  | ABlock :: r => P k /\ cuts P k r
  | _ :: r => cuts P k r
  end.

Lemma bytes_cons a sc : bytes_of (a :: sc) = (match a with AData bs => bs | _ => [] end) ++ bytes_of sc.
Proof. reflexivity. Qed.
Lemma healthy_cons a sc : healthy (a :: sc) -> a <> AIntr /\ a <> AFail /\ healthy sc.
Proof. intros H; inversion H as [|? ? [? ?] ?]; subst; auto. Qed.

Lemma sock_read_spec n sc : 0 < n -> healthy sc ->
  match sock_read n sc with
  | (ROk bs, sc') =>
      (bs = [] -> bytes_of sc = [] /\ bytes_of sc' = []) /\ List.length bs <= n /\ bytes_of sc = bs ++ bytes_of sc' /\
      healthy sc' /\ sock_size sc = List.length bs + sock_size sc' /\
      (forall P k, cuts P k sc -> cuts P (k + List.length bs) sc')
  | (RBlock, sc') => bytes_of sc = bytes_of sc' /\ healthy sc' /\ sock_size sc = S (sock_size sc') /\
      (forall P k, cuts P k sc -> P k /\ cuts P k sc')
  | _ => False
  end.
Proof.
  intros Hn. induction sc as [|a sc IH]; intros H.
  - cbn. split; [auto|]. split; [lia|]. split; [reflexivity|]. split; [constructor|]. split; [reflexivity|auto].
  - apply healthy_cons in H as (H1 & H2 & H3). destruct a as [bs| | |]; try congruence.
    + destruct bs as [|b bs]; cbn [sock_read].
      * specialize (IH H3). destruct (sock_read n sc) as [[rb| | |] sc']; try exact IH;
          rewrite bytes_cons; cbn [app cuts List.length sock_size fold_right];
          fold (sock_size sc).
        -- destruct IH as (I1 & I2 & I3 & I4 & I5 & I6). repeat (split; [assumption|]).
           intros P k Hc. rewrite Nat.add_0_r in Hc. apply I6; assumption.
        -- destruct IH as (I1 & I2 & I3 & I4). repeat (split; [assumption|]).
           intros P k Hc. rewrite Nat.add_0_r in Hc. apply I4; assumption.
      * assert (E : b :: bs = firstn n (b :: bs) ++ skipn n (b :: bs)) by (symmetry; apply firstn_skipn).
        assert (L : List.length (b :: bs) = List.length (firstn n (b :: bs)) + List.length (skipn n (b :: bs)))
          by (rewrite E at 1; apply app_length).
        assert (Hf : firstn n (b :: bs) <> []) by (destruct n; [lia|discriminate]).
        split; [congruence|]. split; [rewrite firstn_length; lia|]. rewrite bytes_cons.
        change (sock_size (AData (b :: bs) :: sc)) with (List.length (b :: bs) + sock_size sc).
        destruct (skipn n (b :: bs)) as [|y ys] eqn:Es.
        -- split; [rewrite E at 1; rewrite app_nil_r; reflexivity|]. split; [assumption|].
           split; [cbn [List.length] in L; cbn [List.length]; lia|].
           intros P k Hc. cbn [cuts] in Hc. replace (List.length (firstn n (b :: bs))) with (List.length (b :: bs)) by (cbn [List.length] in *; lia). assumption.
        -- split; [rewrite bytes_cons, app_assoc, <- E; reflexivity|]. split; [constructor; [split; discriminate|assumption]|].
           split; [change (sock_size (AData (y :: ys) :: sc)) with (List.length (y :: ys) + sock_size sc); lia|].
           intros P k Hc. cbn [cuts] in *. replace (k + List.length (firstn n (b :: bs)) + List.length (y :: ys)) with (k + List.length (b :: bs)) by lia. assumption.
    + cbn [sock_read]. split; [reflexivity|]. split; [assumption|]. split; [reflexivity|]. intros P k [Hp Hc]. auto.
Qed.

Lemma buf_read_spec cap n buf sc : 0 < cap -> 0 < n -> healthy sc ->
  match buf_read cap n buf sc with
  | (ROk bs, buf', sc') =>
      (bs = [] -> buf ++ bytes_of sc = []) /\ List.length bs <= n /\ buf ++ bytes_of sc = bs ++ buf' ++ bytes_of sc' /\
      healthy sc' /\ List.length buf + sock_size sc = List.length bs + (List.length buf' + sock_size sc') /\
      (forall P k, cuts P (k + List.length buf) sc -> cuts P (k + List.length bs + List.length buf') sc')
  | (RBlock, buf', sc') => buf = [] /\ buf' = [] /\ bytes_of sc = bytes_of sc' /\ healthy sc' /\ sock_size sc = S (sock_size sc') /\
      (forall P k, cuts P k sc -> P k /\ cuts P k sc')
  | _ => False
  end.
Proof.
  intros Hc Hn Hh. unfold buf_read. destruct buf as [|b buf].
  - destruct (Nat.leb_spec cap n).
    + pose proof (sock_read_spec n sc Hn Hh) as G. destruct (sock_read n sc) as [[bs| | |] sc']; try exact G.
      * destruct G as (G1 & G2 & G3 & G4 & G5 & G6). cbn [app List.length]. split; [intros E; destruct (G1 E); assumption|].
        split; [assumption|]. split; [assumption|]. split; [assumption|]. split; [lia|].
        intros P k Hcu. rewrite Nat.add_0_r in *. apply G6; assumption.
      * destruct G as (G1 & G2 & G3 & G4). auto 10.
    + pose proof (sock_read_spec cap sc Hc Hh) as G. destruct (sock_read cap sc) as [[bs| | |] sc']; try exact G.
      * destruct G as (G1 & G2 & G3 & G4 & G5 & G6). cbn [app List.length].
        assert (E : bs = firstn n bs ++ skipn n bs) by (symmetry; apply firstn_skipn).
        assert (L : List.length bs = List.length (firstn n bs) + List.length (skipn n bs)) by (rewrite E at 1; apply app_length).
        split; [intros E0; apply G1; destruct bs; [reflexivity|destruct n; [lia|discriminate]]|].
        split; [rewrite firstn_length; lia|]. split; [rewrite app_assoc, <- E; assumption|]. split; [assumption|]. split; [lia|].
        intros P k Hcu. rewrite Nat.add_0_r in Hcu. replace (k + List.length (firstn n bs) + List.length (skipn n bs)) with (k + List.length bs) by lia.
        apply G6; assumption.
      * destruct G as (G1 & G2 & G3 & G4). auto 10.
  - assert (E : b :: buf = firstn n (b :: buf) ++ skipn n (b :: buf)) by (symmetry; apply firstn_skipn).
    assert (L : List.length (b :: buf) = List.length (firstn n (b :: buf)) + List.length (skipn n (b :: buf))) by (rewrite E at 1; apply app_length).
    split; [destruct n; [lia|discriminate]|]. split; [rewrite firstn_length; lia|].
    split; [rewrite app_assoc, <- E; reflexivity|]. split; [assumption|]. split; [lia|].
    intros P k Hcu. replace (k + List.length (firstn n (b :: buf)) + List.length (skipn n (b :: buf))) with (k + List.length (b :: buf)) by lia. assumption.
Qed.

(** the length field, read from the start of a frame *)
Lemma read_exact_spec cap (P : nat -> Prop) : 0 < cap -> (forall k, P k -> ~ (0 < k < 4)) ->
  forall fuel want got buf sc, healthy sc -> want + List.length got = 4 ->
  want < fuel ->
  cuts P (List.length got + List.length buf) sc ->
  match read_exact fuel cap want got buf sc with
  | (XOk l, buf', sc') => List.length l = 4 /\ got ++ buf ++ bytes_of sc = l ++ buf' ++ bytes_of sc' /\ healthy sc' /\
      cuts P (4 + List.length buf') sc' /\ List.length buf' + sock_size sc' <= List.length buf + sock_size sc
  | (XEof, _, _) => List.length (got ++ buf ++ bytes_of sc) < 4
  | (XBlock, buf', sc') => got = [] /\ buf' = [] /\ buf ++ bytes_of sc = bytes_of sc' /\ healthy sc' /\
      cuts P 0 sc' /\ sock_size sc' < List.length buf + sock_size sc
  | (XFail, _, _) => False
  end.
Proof.
  intros Hc HP. induction fuel as [|fuel IH]; intros want got buf sc Hh Hw Hf Hcu; [lia|].
  cbn [read_exact]. destruct want as [|want].
  - cbn in Hw. repeat (split; [first [assumption|reflexivity]|]). split; [rewrite Hw in Hcu; assumption|lia].
  - pose proof (buf_read_spec cap (S want) buf sc Hc (Nat.lt_0_succ _) Hh) as G.
    destruct (buf_read cap (S want) buf sc) as [[[bs| | |] buf'] sc']; try exact G.
    + destruct G as (G1 & G2 & G3 & G4 & G5 & G6). destruct bs as [|b bs].
      * specialize (G1 eq_refl). rewrite G1, app_nil_r. lia.
      * assert (Lb : List.length (b :: bs) = S (List.length bs)) by reflexivity.
        specialize (IH (S want - List.length (b :: bs)) (got ++ b :: bs) buf' sc').
        assert (Lg : List.length (got ++ b :: bs) = List.length got + List.length (b :: bs)) by apply app_length.
        specialize (IH G4 ltac:(lia) ltac:(lia) ltac:(rewrite Lg; apply G6; assumption)).
        destruct (read_exact fuel cap (S want - List.length (b :: bs)) (got ++ b :: bs) buf' sc') as [[[l| | |] buf2] sc2]; try exact IH.
        -- destruct IH as (I1 & I2 & I3 & I4 & I5). split; [assumption|]. split; [rewrite G3, <- I2, <- app_assoc; reflexivity|].
           split; [assumption|]. split; [assumption|]. lia.
        -- rewrite <- app_assoc in IH. rewrite G3. assumption.
        -- destruct IH as (I1 & _). destruct got; discriminate.
    + destruct G as (-> & -> & G1 & G2 & G3 & G4). cbn [app List.length] in *. rewrite Nat.add_0_r in Hcu.
      destruct (G4 P (List.length got) Hcu) as [Hp Hcu']. apply HP in Hp. destruct got as [|g got]; [|cbn [List.length] in *; lia].
      repeat (split; [first [assumption|reflexivity]|]). lia.
    + contradiction.
Qed.

Lemma overwrite_prefix pos bs l : pos + List.length bs <= List.length l ->
  firstn (pos + List.length bs) (overwrite pos bs l) = firstn pos l ++ bs /\ List.length (overwrite pos bs l) = List.length l.
Proof.
  intros H. unfold overwrite. split.
  - rewrite app_assoc, firstn_app. rewrite app_length, firstn_length_le by lia.
    rewrite Nat.sub_diag, firstn_O, app_nil_r. rewrite firstn_all2; [reflexivity|]. rewrite app_length, firstn_length_le by lia. lia.
  - rewrite !app_length, firstn_length_le, skipn_length by lia. lia.
Qed.

(** the payload, [pos] of [size] bytes being read; offsets count from the start of the frame *)
Lemma payload_loop_spec cap (P : nat -> Prop) size : 0 < cap -> 0 < size ->
  forall fuel r, healthy (b_sock r) -> b_pos r < size -> List.length (b_payload r) = size ->
  List.length (b_buf r) + sock_size (b_sock r) < fuel ->
  cuts P (4 + b_pos r + List.length (b_buf r)) (b_sock r) ->
  let total := firstn (b_pos r) (b_payload r) ++ b_buf r ++ bytes_of (b_sock r) in
  match payload_loop fuel cap size r with
  | (None, r') => b_size r' = None /\ b_pos r' = 0 /\ List.length (b_payload r') = size /\
      total = b_payload r' ++ b_buf r' ++ bytes_of (b_sock r') /\ healthy (b_sock r') /\
      cuts P (4 + size + List.length (b_buf r')) (b_sock r') /\ reader_size r' < reader_size r
  | (Some EEof, _) => List.length total < size
  | (Some EWouldBlock, r') => b_size r' = b_size r /\ b_pos r' < size /\ List.length (b_payload r') = size /\
      total = firstn (b_pos r') (b_payload r') ++ b_buf r' ++ bytes_of (b_sock r') /\ healthy (b_sock r') /\
      cuts P (4 + b_pos r' + List.length (b_buf r')) (b_sock r') /\ reader_size r' < reader_size r
  | _ => False
  end.
Proof.
  intros Hc Hs. induction fuel as [|fuel IH]; intros r Hh Hp Hl Hf Hcu total; [lia|]. cbn [payload_loop].
  pose proof (buf_read_spec cap (size - b_pos r) (b_buf r) (b_sock r) Hc ltac:(lia) Hh) as G.
  destruct (buf_read cap (size - b_pos r) (b_buf r) (b_sock r)) as [[[bs| | |] buf'] sc']; try contradiction.
  - destruct G as (G1 & G2 & G3 & G4 & G5 & G6). destruct bs as [|b bs].
    + specialize (G1 eq_refl). unfold total. rewrite G1, app_nil_r, firstn_length. lia.
    + set (bb := b :: bs) in *. assert (Lb : 0 < List.length bb) by (cbn; lia).
      destruct (overwrite_prefix (b_pos r) bb (b_payload r) ltac:(lia)) as [O1 O2].
      destruct (Nat.eqb_spec (b_pos r + List.length bb) size) as [E|E].
      * assert (OA : overwrite (b_pos r) bb (b_payload r) = firstn (b_pos r) (b_payload r) ++ bb)
          by (rewrite <- O1; symmetry; apply firstn_all2; lia).
        cbn [b_size b_pos b_payload b_buf b_sock reader_size]. split; [reflexivity|]. split; [reflexivity|]. split; [lia|].
        split; [unfold total; rewrite G3, OA, <- app_assoc; reflexivity|]. split; [assumption|].
        split; [|unfold reader_size; cbn [b_buf b_sock]; lia]. replace (4 + size + List.length buf') with (4 + b_pos r + List.length bb + List.length buf') by lia. apply G6. assumption.
      * specialize (IH (mkReader (b_size r) (b_pos r + List.length bb) (overwrite (b_pos r) bb (b_payload r)) buf' sc')).
        cbn [b_size b_pos b_payload b_buf b_sock] in IH.
        specialize (IH G4 ltac:(lia) ltac:(lia) ltac:(lia) ltac:(replace (4 + (b_pos r + List.length bb) + List.length buf') with (4 + b_pos r + List.length bb + List.length buf') by lia; apply G6; assumption)). cbv zeta in IH.
        assert (ET : total = firstn (b_pos r + List.length bb) (overwrite (b_pos r) bb (b_payload r)) ++ buf' ++ bytes_of sc')
          by (unfold total; rewrite O1, G3, <- app_assoc; reflexivity).
        rewrite <- ET in IH.
        destruct (payload_loop fuel cap size _) as [[[| | |]|] r']; try exact IH.
        -- destruct IH as (I1 & I2 & I3 & I4 & I5 & I6 & I7). repeat (split; [assumption|]). unfold reader_size in *; cbn [b_buf b_sock] in *; lia.
        -- destruct IH as (I1 & I2 & I3 & I4 & I5 & I6 & I7). repeat (split; [assumption|]). unfold reader_size in *; cbn [b_buf b_sock] in *; lia.
  - destruct G as (G1 & -> & G2 & G3 & G4 & G5). unfold total. rewrite G1 in *. cbn [b_size b_pos b_payload b_buf b_sock app List.length] in *.
    rewrite Nat.add_0_r in Hcu. destruct (G5 _ _ Hcu) as [_ Hcu']. rewrite G2. repeat (split; [first [assumption|reflexivity]|]).
    split; [rewrite Nat.add_0_r; assumption|]. unfold reader_size; cbn [b_buf b_sock]; rewrite G1; cbn; lia.
Qed.

(** the bytes of the current frame that the reader holds *)
Definition pending (r : reader) (h : list N) : Prop :=
  match b_size r with
  | None => h = [] /\ b_pos r = 0
  | Some n => exists l, List.length l = 4 /\ be_dec l = n /\ h = l ++ firstn (b_pos r) (b_payload r) /\
      (b_pos r = 0 \/ (b_pos r < n /\ List.length (b_payload r) = n))
  end.
Definition held (r : reader) (h : list N) : list N := h ++ b_buf r ++ bytes_of (b_sock r).
Definition well (P : nat -> Prop) (r : reader) (h : list N) : Prop :=
  pending r h /\ healthy (b_sock r) /\ cuts P (List.length h + List.length (b_buf r)) (b_sock r).

Lemma resize0_length n l : List.length (resize0 n l) = n.
Proof. unfold resize0. rewrite app_length, firstn_length, repeat_length. lia. Qed.

Lemma read_spec cap max (P : nat -> Prop) r h : 0 < cap -> (forall k, P k -> ~ (0 < k < 4)) -> well P r h ->
  match read cap max r with
  | (inl p, r') => exists l, List.length l = 4 /\ be_dec l = List.length p /\ p <> [] /\ List.length p <= max /\
      held r h = l ++ p ++ held r' [] /\ pending r' [] /\ healthy (b_sock r') /\
      cuts P (4 + List.length p + List.length (b_buf r')) (b_sock r') /\ reader_size r' < reader_size r
  | (inr EWouldBlock, r') => exists h', well P r' h' /\ held r' h' = held r h /\ reader_size r' < reader_size r
  | (inr e, _) => ending max (held r h) e
  end.
Proof.
  intros Hc HP (Hp & Hh & Hcu).
  assert (G : match read_length cap r with
    | (None, r') => exists h' n, b_size r' = Some n /\ well P r' h' /\ held r' h' = held r h /\ reader_size r' <= reader_size r
    | (Some EEof, _) => List.length (held r h) < 4
    | (Some EWouldBlock, r') => well P r' [] /\ held r' [] = held r h /\ reader_size r' < reader_size r
    | _ => False end).
  { unfold read_length, pending in *. destruct (b_size r) as [n|] eqn:En.
    - exists h, n. split; [assumption|]. split; [|split; [reflexivity|lia]]. unfold well, pending. rewrite En. auto.
    - destruct Hp as [-> Hp0]. cbn [List.length Nat.add] in Hcu.
      pose proof (read_exact_spec cap P Hc HP (5 + reader_size r) 4 [] (b_buf r) (b_sock r) Hh eq_refl ltac:(cbn; lia) Hcu) as G.
      destruct (read_exact (5 + reader_size r) cap 4 [] (b_buf r) (b_sock r)) as [[[l| | |] buf'] sc']; cbn [app] in G.
      + destruct G as (G1 & G2 & G3 & G4 & G5). exists l, (be_dec l). split; [reflexivity|].
        unfold well, pending, held, reader_size. cbn [b_size b_pos b_payload b_buf b_sock]. rewrite Hp0. split; [split; [|split]|split].
        * exists l. cbn. rewrite app_nil_r. auto 6.
        * assumption.
        * rewrite G1. assumption.
        * rewrite <- G2. reflexivity.
        * assumption.
      + unfold held. cbn [app]. assumption.
      + destruct G as (_ & -> & G1 & G2 & G3 & G4). unfold well, pending, held, reader_size. cbn [b_size b_pos b_payload b_buf b_sock app List.length].
        rewrite Hp0. split; [auto|]. split; [rewrite G1; reflexivity|]. lia.
      + contradiction. }
  unfold read. destruct (read_length cap r) as [[e|] r1].
  - destruct e; try contradiction.
    + apply end_in_length; assumption.
    + exists []. tauto.
  - destruct G as (h1 & n & En & (Hp1 & Hh1 & Hcu1) & Et & Hsz). rewrite En.
    unfold pending in Hp1. rewrite En in Hp1. destruct Hp1 as (l & Ll & Dl & -> & Hpos).
    assert (T4 : held r h = l ++ firstn (b_pos r1) (b_payload r1) ++ b_buf r1 ++ bytes_of (b_sock r1))
      by (rewrite <- Et; unfold held; rewrite <- app_assoc; reflexivity).
    assert (F4 : firstn 4 (held r h) = l) by (rewrite T4, firstn_app, <- Ll, firstn_all, Nat.sub_diag, firstn_O, app_nil_r; reflexivity).
    assert (L4 : 4 <= List.length (held r h)) by (rewrite T4, app_length; lia).
    destruct (Nat.ltb_spec max n) as [Hm|Hm].
    + apply end_too_large; [assumption|rewrite F4, Dl; assumption].
    + unfold read_payload.
      set (r2 := mkReader (b_size r1) (b_pos r1) (if List.length (b_payload r1) =? n then b_payload r1 else resize0 n (b_payload r1)) (b_buf r1) (b_sock r1)).
      destruct n as [|n0].
      * (* zero length: the read of no bytes *)
        destruct Hpos as [Hpos|Hpos]; [|lia].
        assert (Ending : ending max (held r h) EEof) by (apply end_empty_payload; [assumption|rewrite F4; assumption]).
        cbn [payload_loop Nat.add]. replace (b_pos r2) with 0 by (symmetry; assumption). cbn [Nat.sub b_buf r2 b_sock]. fold r2.
        unfold buf_read. destruct (b_buf r1) as [|b buf] eqn:Eb.
        -- destruct (Nat.leb_spec cap 0); [lia|]. pose proof (sock_read_spec cap (b_sock r1) Hc Hh1) as S.
           destruct (sock_read cap (b_sock r1)) as [[bs| | |] sc']; try contradiction.
           ++ cbn [firstn]. assumption.
           ++ destruct S as (S1 & S2 & S3 & S4). exists l. unfold well, pending, reader_size. cbn [b_size b_pos b_payload b_buf b_sock r2].
              rewrite Hpos in *. cbn [firstn] in *. rewrite app_nil_r in *. cbn [List.length] in *. rewrite Nat.add_0_r in *.
              destruct (S4 _ _ Hcu1) as [_ Hcu2]. rewrite En. split; [|split].
              ** split; [|split]; try assumption. exists l. rewrite app_nil_r. auto 6.
              ** rewrite <- Et. unfold held. cbn [b_buf b_sock]. rewrite Eb, S1. reflexivity.
              ** unfold reader_size in Hsz. rewrite Eb in Hsz. cbn [List.length] in Hsz |- *. lia.
        -- cbn [firstn]. assumption.
      * assert (L2 : List.length (b_payload r2) = S n0).
        { cbn [b_payload r2]. destruct (Nat.eqb_spec (List.length (b_payload r1)) (S n0)); [assumption|apply resize0_length]. }
        assert (F2 : firstn (b_pos r2) (b_payload r2) = firstn (b_pos r1) (b_payload r1)).
        { cbn [b_payload b_pos r2]. destruct (Nat.eqb_spec (List.length (b_payload r1)) (S n0)) as [E|E]; [reflexivity|].
          destruct Hpos as [Hpos|[_ Hpos]]; [rewrite Hpos; reflexivity|congruence]. }
        assert (Lf : List.length (l ++ firstn (b_pos r1) (b_payload r1)) = 4 + b_pos r1).
        { rewrite app_length, Ll. destruct Hpos as [Hpos|[Hpos Hpos']]; [rewrite Hpos; reflexivity|]. rewrite firstn_length_le by lia. reflexivity. }
        rewrite Lf in Hcu1.
        pose proof (payload_loop_spec cap P (S n0) Hc ltac:(lia) (1 + reader_size r1) r2 Hh1 ltac:(cbn [b_pos r2]; lia) L2
           ltac:(cbn [b_buf b_sock r2]; unfold reader_size; lia) Hcu1) as G. cbv zeta in G. rewrite F2 in G. cbn [b_buf b_sock r2] in G. fold r2 in G.
        change (reader_size r2) with (reader_size r1) in G.
        destruct (payload_loop (1 + reader_size r1) cap (S n0) r2) as [[[| | |]|] r3]; try contradiction.
        -- apply end_in_payload; [assumption|rewrite F4, Dl; assumption|]. rewrite F4, Dl, T4, app_length, Ll. lia.
        -- destruct G as (G1 & G2 & G3 & G4 & G5 & G6 & G7). exists (l ++ firstn (b_pos r3) (b_payload r3)).
           unfold well, pending. rewrite G1. cbn [b_size r2]. rewrite En. split; [|split].
           ++ split; [exists l; auto 8|]. split; [assumption|]. rewrite app_length, Ll, firstn_length_le by lia. assumption.
           ++ rewrite T4. unfold held. rewrite <- app_assoc. f_equal. symmetry. assumption.
           ++ lia.
        -- destruct G as (G1 & G2 & G3 & G4 & G5 & G6 & G7). exists l. rewrite G3, T4. unfold held, pending.
           cbn [b_size b_pos b_payload b_buf b_sock app]. rewrite G1. split; [assumption|]. split; [assumption|].
           split; [destruct (b_payload r3); [discriminate|discriminate]|]. split; [assumption|].
           split; [f_equal; exact G4|]. split; [auto|]. split; [assumption|]. split; [assumption|].
           unfold reader_size in *. cbn [b_buf b_sock]. lia.
Qed.

(** offsets outside the length fields of a stream of frames followed by a tail *)
Fixpoint off_lengths (ps : list (list N)) (k : nat) : Prop :=
  ~ (0 < k < 4) /\
  match ps with
  | [] => True
  | p :: r => 4 + List.length p <= k -> off_lengths r (k - (4 + List.length p))
  end.

Lemma cuts_impl (P R : nat -> Prop) d : forall sc k, (forall j, k <= j -> P j -> R (j - d)) -> d <= k -> cuts P k sc -> cuts R (k - d) sc.
Proof.
  induction sc as [|a sc IH]; intros k HPR Hd; [auto|]. destruct a as [bs| | |]; cbn [cuts]; intros Hc.
  - replace (k - d + List.length bs) with (k + List.length bs - d) by lia. apply IH; [|lia|assumption]. intros j Hj. apply HPR. lia.
  - destruct Hc as [H1 H2]. split; [apply HPR; auto|]. apply IH; auto.
  - apply IH; auto.
  - apply IH; auto.
Qed.

Lemma app_len_inj {A} (a b x y : list A) : List.length a = List.length b -> a ++ x = b ++ y -> a = b /\ x = y.
Proof.
  revert b. induction a as [|u a IH]; intros [|v b] L E; try discriminate; [auto|].
  cbn in L, E. injection E as -> E. destruct (IH b) as [-> ->]; auto.
Qed.
Lemma handle_spec cap max tail e : 0 < cap -> ending max tail e -> forall fuel ps r h,
  Forall (fun p => p <> [] /\ List.length p <= max) ps -> Forall (fun p => be_dec (be32 (List.length p)) = List.length p) ps ->
  well (off_lengths ps) r h -> held r h = frames ps ++ tail -> reader_size r < fuel ->
  handle fuel cap max r = (ps, e).
Proof.
  intros Hc He. induction fuel as [|fuel IH]; intros ps r h Hps Hbe Hw Ht Hf; [lia|]. cbn [handle].
  assert (HP : forall k, off_lengths ps k -> ~ (0 < k < 4)) by (intros k; destruct ps; cbn; tauto).
  pose proof (read_spec cap max (off_lengths ps) r h Hc HP Hw) as G.
  assert (Hcase : forall e', ending max (held r h) e' -> ps = [] /\ e' = e).
  { intros e' G'. destruct ps as [|p ps].
    - split; [reflexivity|]. cbn [frames map List.concat app] in Ht. rewrite Ht in G'.
      clear - G' He. inversion He; subst; inversion G'; subst; try reflexivity; lia.
    - exfalso. inversion Hps as [|? ? [Hp1 Hp2] _]; subst. inversion Hbe as [|? ? Hb _]; subst.
      assert (Hp3 : 0 < List.length p) by (destruct p; [congruence|cbn; lia]).
      assert (E : held r h = be32 (List.length p) ++ p ++ frames ps ++ tail) by (rewrite Ht; unfold frames; cbn [map List.concat]; unfold frame; rewrite <- !app_assoc; reflexivity).
      assert (F : firstn 4 (held r h) = be32 (List.length p)) by (rewrite E; reflexivity).
      assert (L : List.length (held r h) >= 4 + List.length p) by (rewrite E, !app_length; cbn [be32 List.length]; lia).
      inversion G'; subst; rewrite ?F, ?Hb in *; lia. }
  destruct (read cap max r) as [[p|pe] r'].
  - destruct G as (l & Ll & Dl & Hp1 & Hp2 & Eh & Hpend & Hh' & Hcu & Hsz). destruct ps as [|p0 ps].
    + exfalso. cbn [frames map List.concat app] in Ht. rewrite Ht in Eh. clear - Eh He Dl Ll Hp1 Hp2.
      assert (F : firstn 4 tail = l) by (rewrite Eh, firstn_app, <- Ll, firstn_all, Nat.sub_diag, firstn_O, app_nil_r; reflexivity).
      assert (L : List.length tail >= 4 + List.length p) by (rewrite Eh, !app_length; lia).
      assert (0 < List.length p) by (destruct p; [congruence|cbn; lia]).
      inversion He; subst; rewrite ?F, ?Dl in *; lia.
    + inversion Hps as [|? ? Hp0 Hps']; subst. inversion Hbe as [|? ? Hb Hbe']; subst.
      unfold frames in Ht. cbn [map List.concat] in Ht. fold (frames ps) in Ht. unfold frame in Ht. rewrite <- !app_assoc in Ht. rewrite Eh in Ht.
      apply app_len_inj in Ht as [-> Ht]; [|assumption]. rewrite Hb in Dl.
      apply app_len_inj in Ht as [<- Ht]; [|symmetry; assumption].
      rewrite (IH ps r' []); [reflexivity|assumption|assumption| |assumption|lia].
      split; [assumption|]. split; [assumption|]. cbn [List.length Nat.add].
      replace (List.length (b_buf r')) with (4 + List.length p + List.length (b_buf r') - (4 + List.length p)) by lia.
      eapply cuts_impl; [|lia|exact Hcu]. intros j Hj [_ Hoff]. apply Hoff. lia.
  - destruct pe.
    + apply Hcase in G as [-> ->]. reflexivity.
    + destruct G as (h' & Hw' & Et & Hsz). apply (IH ps r' h'); auto; [congruence|lia].
    + apply Hcase in G as [-> ->]. reflexivity.
    + apply Hcase in G as [-> ->]. reflexivity.
Qed.

Lemma cuts_split (P : nat -> Prop) : forall sc k, (forall s1 s2, sc = s1 ++ ABlock :: s2 -> P (k + List.length (bytes_of s1))) -> cuts P k sc.
Proof.
  induction sc as [|a sc IH]; intros k H; [exact I|].
  assert (G : forall d, (match a with AData bs => bs | _ => [] end) = d -> cuts P (k + List.length d) sc).
  { intros d Hd. apply IH. intros s1 s2 E. subst sc. specialize (H (a :: s1) s2 eq_refl). rewrite bytes_cons, app_length, Hd, Nat.add_assoc in H. assumption. }
  destruct a as [bs| | |]; cbn [cuts]; specialize (G _ eq_refl); try (cbn [List.length] in G; rewrite Nat.add_0_r in G).
  - assumption.
  - split; [|assumption]. specialize (H [] sc eq_refl). cbn in H. rewrite Nat.add_0_r in H. assumption.
  - assumption.
  - assumption.
Qed.
Lemma off_lengths_iff : forall ps tail k, (forall before p after, ps ++ [tail] = before ++ p :: after ->
    ~ (List.length (frames before) < k < List.length (frames before) + 4)) -> off_lengths ps k.
Proof.
  induction ps as [|p ps IH]; intros tail k H; cbn [off_lengths].
  - split; [|exact I]. specialize (H [] tail [] eq_refl). cbn in H. lia.
  - split; [specialize (H [] p (ps ++ [tail]) eq_refl); cbn in H; lia|].
    intros Hk. apply (IH tail). intros before q after E. specialize (H (p :: before) q after).
    assert (L : List.length (frames (p :: before)) = 4 + List.length p + List.length (frames before)).
    { unfold frames. cbn [map List.concat]. rewrite app_length. unfold frame at 1. rewrite app_length. reflexivity. }
    rewrite L in H. cbn [app] in H. rewrite E in H. specialize (H eq_refl). lia.
Qed.

Lemma be32_dec n : (N.of_nat n < 4294967296)%N -> be_dec (be32 n) = n.
Proof.
  intros H. unfold be_dec, be32. cbn [fold_left].
  set (z := N.of_nat n) in *.
  assert (E : ((((0 * 256 + (z / 16777216) mod 256) * 256 + (z / 65536) mod 256) * 256 + (z / 256) mod 256) * 256 + z mod 256 = z)%N).
  { pose proof (N.div_mod z 256 ltac:(discriminate)) as E1.
    pose proof (N.div_mod (z / 256) 256 ltac:(discriminate)) as E2.
    pose proof (N.div_mod (z / 65536) 256 ltac:(discriminate)) as E3.
    replace (z / 256 / 256)%N with (z / 65536)%N in E2 by (rewrite N.div_div by discriminate; reflexivity).
    replace (z / 65536 / 256)%N with (z / 16777216)%N in E3 by (rewrite N.div_div by discriminate; reflexivity).
    assert (E4 : ((z / 16777216) mod 256 = z / 16777216)%N).
    { apply N.mod_small. apply N.div_lt_upper_bound; [discriminate|]. lia. }
    lia. }
  rewrite E. unfold z. apply Nat2N.id.
Qed.
