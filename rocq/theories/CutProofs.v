From Verif Require Import Base BaseFacts FramingModel FramingSpec FramingProofs CutSpec.
Open Scope list_scope. Open Scope nat_scope.

Definition prep (b : list N) (l : list (list N)) : list (list N) := match l with s :: r => (b ++ s) :: r | [] => [b] end.
Lemma portions_cons sc : exists s r, portions sc = s :: r.
Proof. induction sc as [|[bs| | |] sc (s & r & E)]; cbn; rewrite ?E; eauto. Qed.
Lemma portions_data bs sc : portions (AData bs :: sc) = prep bs (portions sc).
Proof. reflexivity. Qed.
Lemma prep_prep a b l : prep a (prep b l) = prep (a ++ b) l.
Proof. destruct l; cbn; [reflexivity|]. rewrite app_assoc. reflexivity. Qed.
Lemma prep_nil l : l <> [] -> prep [] l = l.
Proof. destruct l; [congruence|reflexivity]. Qed.
Lemma portions_nn sc : portions sc <> [].
Proof. destruct (portions_cons sc) as (s & r & ->). discriminate. Qed.

Lemma sock_read_portions n sc : 0 < n -> healthy sc ->
  match sock_read n sc with
  | (ROk bs, sc') => (bs = [] -> portions sc = [[]]) /\ List.length bs <= n /\ portions sc = prep bs (portions sc') /\ healthy sc' /\ sock_size sc = List.length bs + sock_size sc'
  | (RBlock, sc') => portions sc = [] :: portions sc' /\ healthy sc' /\ sock_size sc = S (sock_size sc')
  | _ => False
  end.
Proof.
  intros Hn. induction sc as [|a sc IH]; intros H.
  - cbn. repeat split; auto. lia.
  - apply healthy_cons in H as (H1 & H2 & H3). destruct a as [bs| | |]; try congruence.
    + destruct bs as [|b bs]; cbn [sock_read].
      * specialize (IH H3). rewrite portions_data, (prep_nil _ (portions_nn sc)). change (sock_size (AData [] :: sc)) with (sock_size sc). exact IH.
      * set (bb := b :: bs). assert (E : bb = firstn n bb ++ skipn n bb) by (symmetry; apply firstn_skipn).
        assert (L : List.length bb = List.length (firstn n bb) + List.length (skipn n bb)) by (rewrite E at 1; apply app_length).
        assert (Hf : firstn n bb <> []) by (destruct n; [lia|discriminate]).
        split; [congruence|]. split; [rewrite firstn_length; lia|]. rewrite portions_data. change (sock_size (AData bb :: sc)) with (List.length bb + sock_size sc).
        destruct (skipn n bb) as [|y ys] eqn:Es.
        -- split; [rewrite E at 1; rewrite app_nil_r; reflexivity|]. split; [assumption|]. cbn [List.length] in L. lia.
        -- split; [rewrite portions_data, prep_prep, <- E; reflexivity|]. split; [constructor; [split; discriminate|assumption]|].
           change (sock_size (AData (y :: ys) :: sc)) with (List.length (y :: ys) + sock_size sc). lia.
    + cbn. auto.
Qed.
Lemma buf_read_portions cap n buf sc : 0 < cap -> 0 < n -> healthy sc ->
  match buf_read cap n buf sc with
  | (ROk bs, buf', sc') => (bs = [] -> prep buf (portions sc) = [[]]) /\ List.length bs <= n /\ prep buf (portions sc) = prep bs (prep buf' (portions sc')) /\
      healthy sc' /\ List.length buf + sock_size sc = List.length bs + (List.length buf' + sock_size sc')
  | (RBlock, buf', sc') => buf = [] /\ buf' = [] /\ portions sc = [] :: portions sc' /\ healthy sc' /\ sock_size sc = S (sock_size sc')
  | _ => False
  end.
Proof.
  intros Hc Hn Hh. unfold buf_read. destruct buf as [|b buf].
  - rewrite (prep_nil _ (portions_nn sc)). destruct (Nat.leb_spec cap n).
    + pose proof (sock_read_portions n sc Hn Hh) as G. destruct (sock_read n sc) as [[bs| | |] sc']; try exact G.
      * destruct G as (G1 & G2 & G3 & G4 & G5). rewrite (prep_nil _ (portions_nn sc')). cbn [List.length]. auto.
      * destruct G as (G1 & G2 & G3). auto.
    + pose proof (sock_read_portions cap sc Hc Hh) as G. destruct (sock_read cap sc) as [[bs| | |] sc']; try exact G.
      * destruct G as (G1 & G2 & G3 & G4 & G5). assert (E : bs = firstn n bs ++ skipn n bs) by (symmetry; apply firstn_skipn).
        assert (L : List.length bs = List.length (firstn n bs) + List.length (skipn n bs)) by (rewrite E at 1; apply app_length).
        split; [intros E0; apply G1; destruct bs; [reflexivity|destruct n; [lia|discriminate]]|]. split; [rewrite firstn_length; lia|].
        split; [rewrite prep_prep, <- E; assumption|]. split; [assumption|cbn; lia].
      * destruct G as (G1 & G2 & G3). auto.
  - set (bb := b :: buf). assert (E : bb = firstn n bb ++ skipn n bb) by (symmetry; apply firstn_skipn).
    assert (L : List.length bb = List.length (firstn n bb) + List.length (skipn n bb)) by (rewrite E at 1; apply app_length).
    split; [destruct n; [lia|discriminate]|]. split; [rewrite firstn_length; lia|]. split; [rewrite prep_prep, <- E; reflexivity|]. split; [assumption|lia].
Qed.
Lemma read_exact_portions cap : 0 < cap -> forall fuel want got buf sc, healthy sc -> want + List.length got = 4 -> want < fuel ->
  match read_exact fuel cap want got buf sc with
  | (XOk l, buf', sc') => List.length l = 4 /\ prep (got ++ buf) (portions sc) = prep l (prep buf' (portions sc')) /\ healthy sc' /\
      List.length buf' + sock_size sc' <= List.length buf + sock_size sc
  | (XEof, _, _) => exists t, prep (got ++ buf) (portions sc) = [t] /\ List.length t < 4
  | (XBlock, buf', sc') => exists t, buf' = [] /\ prep (got ++ buf) (portions sc) = t :: portions sc' /\ List.length t < 4 /\ healthy sc' /\ sock_size sc' < List.length buf + sock_size sc
  | (XFail, _, _) => False
  end.
Proof.
  intros Hc. induction fuel as [|fuel IH]; intros want got buf sc Hh Hw Hf; [lia|]. cbn [read_exact]. destruct want as [|want].
  - cbn in Hw. split; [assumption|]. split; [rewrite prep_prep; reflexivity|]. split; [assumption|lia].
  - pose proof (buf_read_portions cap (S want) buf sc Hc (Nat.lt_0_succ _) Hh) as G.
    destruct (buf_read cap (S want) buf sc) as [[[bs| | |] buf'] sc']; try exact G.
    + destruct G as (G1 & G2 & G3 & G4 & G5). destruct bs as [|b bs].
      * specialize (G1 eq_refl). exists got. rewrite <- prep_prep, G1. cbn. rewrite app_nil_r. split; [reflexivity|lia].
      * set (bb := b :: bs) in *. assert (0 < List.length bb) by (cbn; lia).
        specialize (IH (S want - List.length bb) (got ++ bb) buf' sc' G4 ltac:(rewrite app_length; lia) ltac:(lia)).
        assert (E : prep (got ++ buf) (portions sc) = prep ((got ++ bb) ++ buf') (portions sc')) by (rewrite <- prep_prep, G3, !prep_prep; f_equal; rewrite ?app_assoc; reflexivity).
        rewrite <- E in IH. destruct (read_exact fuel cap (S want - List.length bb) (got ++ bb) buf' sc') as [[[l| | |] buf2] sc2]; try exact IH.
        -- destruct IH as (I1 & I2 & I3 & I4). repeat (split; [assumption|]). lia.
        -- destruct IH as (t & I1 & I2 & I3 & I4 & I5). exists t. repeat (split; [assumption|]). lia.
    + destruct G as (-> & -> & G1 & G2 & G3). exists got. rewrite app_nil_r, G1. cbn. rewrite app_nil_r. repeat (split; [first [assumption|reflexivity]|]). split; [lia|]. split; [assumption|lia].
    + contradiction.
Qed.
Lemma takes_prep b n l : l <> [] -> takes (List.length b + n) (prep b l) = match takes n l with Some (p, r) => Some (b ++ p, r) | None => None end.
Proof.
  destruct l as [|s r]; [congruence|]. intros _. cbn [prep takes]. rewrite app_length. destruct (Nat.leb_spec n (List.length s)).
  - destruct (Nat.leb_spec (List.length b + n) (List.length b + List.length s)); [|lia]. rewrite firstn_app_2, skipn_app. f_equal. f_equal. f_equal. rewrite skipn_all2 by lia. cbn. f_equal. lia.
  - destruct (Nat.leb_spec (List.length b + n) (List.length b + List.length s)); [lia|]. replace (List.length b + n - (List.length b + List.length s)) with (n - List.length s) by lia.
    destruct (takes (n - List.length s) r) as [[p r']|]; [rewrite app_assoc|]; reflexivity.
Qed.
Lemma takes_0 s r : takes 0 (s :: r) = Some ([], s :: r).
Proof. reflexivity. Qed.
Lemma takes_block n l : 0 < n -> takes n ([] :: l) = match takes n l with Some (p, r) => Some (p, r) | None => None end.
Proof. intros H. cbn [takes List.length]. destruct (Nat.leb_spec n 0); [lia|]. rewrite Nat.sub_0_r. destruct (takes n l) as [[p r]|]; reflexivity. Qed.
(** what the reader will see *)
Definition ahead (r : reader) : list (list N) := prep (b_buf r) (portions (b_sock r)).
Lemma ahead_nn r : ahead r <> [].
Proof. unfold ahead. destruct (portions_cons (b_sock r)) as (s & l & ->). discriminate. Qed.
Definition pre (p : list N) (o : option (list N * list (list N))) := match o with Some (q, r) => Some (p ++ q, r) | None => None end.
Lemma payload_loop_portions cap size : 0 < cap -> 0 < size ->
  forall fuel r, healthy (b_sock r) -> b_pos r < size -> List.length (b_payload r) = size -> reader_size r < fuel ->
  match payload_loop fuel cap size r with
  | (None, r') => b_size r' = None /\ b_pos r' = 0 /\ List.length (b_payload r') = size /\
      pre (firstn (b_pos r) (b_payload r)) (takes (size - b_pos r) (ahead r)) = Some (b_payload r', ahead r') /\ healthy (b_sock r') /\ reader_size r' < reader_size r
  | (Some EEof, _) => takes (size - b_pos r) (ahead r) = None
  | (Some EWouldBlock, r') => b_size r' = b_size r /\ b_pos r' < size /\ List.length (b_payload r') = size /\
      pre (firstn (b_pos r) (b_payload r)) (takes (size - b_pos r) (ahead r)) = pre (firstn (b_pos r') (b_payload r')) (takes (size - b_pos r') (ahead r')) /\ healthy (b_sock r') /\ reader_size r' < reader_size r
  | _ => False
  end.
Proof.
  intros Hc Hs. induction fuel as [|fuel IH]; intros r Hh Hp Hl Hf; [lia|]. cbn [payload_loop].
  pose proof (buf_read_portions cap (size - b_pos r) (b_buf r) (b_sock r) Hc ltac:(lia) Hh) as G.
  destruct (buf_read cap (size - b_pos r) (b_buf r) (b_sock r)) as [[[bs| | |] buf'] sc']; try contradiction.
  - destruct G as (G1 & G2 & G3 & G4 & G5). fold (ahead r) in G1, G3. destruct bs as [|b bs].
    + rewrite (G1 eq_refl). cbn [takes List.length]. destruct (Nat.leb_spec (size - b_pos r) 0); [lia|reflexivity].
    + set (bb := b :: bs) in *. assert (Lb : 0 < List.length bb) by (cbn; lia).
      destruct (overwrite_prefix (b_pos r) bb (b_payload r) ltac:(lia)) as [O1 O2].
      assert (ET : takes (size - b_pos r) (ahead r) = pre bb (takes (size - b_pos r - List.length bb) (prep buf' (portions sc')))).
      { rewrite G3. replace (size - b_pos r) with (List.length bb + (size - b_pos r - List.length bb)) at 1 by lia. apply takes_prep. destruct (portions_cons sc') as (s & l & ->). discriminate. }
      destruct (Nat.eqb_spec (b_pos r + List.length bb) size) as [E|E].
      * assert (OA : overwrite (b_pos r) bb (b_payload r) = firstn (b_pos r) (b_payload r) ++ bb) by (rewrite <- O1; symmetry; apply firstn_all2; lia).
        cbn [b_size b_pos b_payload b_buf b_sock reader_size]. split; [reflexivity|]. split; [reflexivity|]. split; [lia|]. split; [|split; [assumption|unfold reader_size; cbn [b_buf b_sock]; lia]].
        rewrite ET. replace (size - b_pos r - List.length bb) with 0 by lia. unfold ahead. cbn [b_buf b_sock]. destruct (portions_cons sc') as (s & l & ->). cbn [prep]. rewrite takes_0. cbn [pre]. rewrite app_nil_r, OA. reflexivity.
      * set (r1 := mkReader (b_size r) (b_pos r + List.length bb) (overwrite (b_pos r) bb (b_payload r)) buf' sc').
        assert (Z1 : reader_size r1 < reader_size r) by (unfold reader_size, r1; cbn [b_buf b_sock]; lia).
        specialize (IH r1 G4 ltac:(cbn [r1 b_pos]; lia) ltac:(cbn [r1 b_payload]; lia) ltac:(lia)).
        assert (EP : pre (firstn (b_pos r) (b_payload r)) (takes (size - b_pos r) (ahead r)) = pre (firstn (b_pos r1) (b_payload r1)) (takes (size - b_pos r1) (ahead r1))).
        { rewrite ET. cbn [r1 b_pos b_payload]. unfold ahead. cbn [r1 b_buf b_sock]. rewrite O1. replace (size - (b_pos r + List.length bb)) with (size - b_pos r - List.length bb) by lia.
          destruct (takes (size - b_pos r - List.length bb) (prep buf' (portions sc'))) as [[q l]|]; [|reflexivity]. unfold pre. rewrite app_assoc. reflexivity. }
        destruct (payload_loop fuel cap size r1) as [[[| | |]|] r']; try exact IH.
        -- rewrite ET. change (b_pos r1) with (b_pos r + List.length bb) in IH. replace (size - (b_pos r + List.length bb)) with (size - b_pos r - List.length bb) in IH by lia. change (ahead r1) with (prep buf' (portions sc')) in IH. rewrite IH. reflexivity.
        -- rewrite EP. destruct IH as (I1 & I2 & I3 & I4 & I5 & I6). repeat (split; [assumption|]). lia.
        -- rewrite EP. destruct IH as (I1 & I2 & I3 & I4 & I5 & I6). repeat (split; [assumption|]). lia.
  - destruct G as (G1 & -> & G2 & G3 & G4). cbn [b_size b_pos b_payload b_buf b_sock]. repeat (split; [first [assumption|reflexivity]|]). split; [|split; [assumption|unfold reader_size; cbn [b_buf b_sock]; rewrite G1; cbn; lia]].
    f_equal. unfold ahead at 1. rewrite G1, G2. cbn [prep app]. unfold ahead. cbn [b_buf b_sock]. rewrite (prep_nil _ (portions_nn sc')), takes_block by lia. destruct (takes (size - b_pos r) (portions sc')) as [[q l]|]; reflexivity.
Qed.
Definition sane (max : nat) (r : reader) : Prop := healthy (b_sock r) /\ match b_size r with None => b_pos r = 0 | Some n => n <= max /\ (b_pos r = 0 \/ (b_pos r < n /\ List.length (b_payload r) = n)) end.
Definition will (max : nat) (r : reader) (ps : list (list N)) (e : perr) : Prop :=
  match b_size r with
  | None => reads max (ahead r) ps e
  | Some 0 => ps = [] /\ e = EEof
  | Some n => match pre (firstn (b_pos r) (b_payload r)) (takes (n - b_pos r) (ahead r)) with
              | Some (p, l') => exists ps', ps = p :: ps' /\ reads max l' ps' e
              | None => ps = [] /\ e = EEof
              end
  end.
Lemma read_portions cap max r : 0 < cap -> sane max r ->
  match read cap max r with
  | (inl p, r') => sane max r' /\ b_size r' = None /\ reader_size r' < reader_size r /\ forall ps e, reads max (ahead r') ps e -> will max r (p :: ps) e
  | (inr EWouldBlock, r') => sane max r' /\ reader_size r' < reader_size r /\ forall ps e, will max r' ps e -> will max r ps e
  | (inr e, _) => will max r [] e
  end.
Proof.
  intros Hc [Hh Hz].
  assert (G : match read_length cap r with
    | (None, r') => exists n, b_size r' = Some n /\ healthy (b_sock r') /\ reader_size r' <= reader_size r /\ ((b_pos r' = 0 \/ (b_pos r' < n /\ List.length (b_payload r') = n)) /\
        (max < n -> will max r [] ETooLarge) /\ (n <= max -> forall ps e, will max r' ps e -> will max r ps e))
    | (Some EEof, _) => will max r [] EEof
    | (Some EWouldBlock, r') => sane max r' /\ reader_size r' < reader_size r /\ forall ps e, will max r' ps e -> will max r ps e
    | _ => False end).
  { unfold read_length. destruct (b_size r) as [n|] eqn:En.
    - destruct Hz as [Hm Hz]. exists n. split; [assumption|]. split; [assumption|]. split; [lia|]. split; [assumption|]. split; [lia|auto].
    - pose proof (read_exact_portions cap Hc (5 + reader_size r) 4 [] (b_buf r) (b_sock r) Hh eq_refl ltac:(cbn; lia)) as G. cbn [app] in G. fold (ahead r) in G.
      destruct (read_exact (5 + reader_size r) cap 4 [] (b_buf r) (b_sock r)) as [[[l| | |] buf'] sc'].
      + destruct G as (G1 & G2 & G3 & G4). exists (be_dec l). cbn [b_size b_sock b_pos b_payload]. split; [reflexivity|]. split; [assumption|]. split; [assumption|]. split; [auto|].
        destruct (portions_cons sc') as (s & rr & Es). rewrite Es in G2. cbn [prep] in G2. unfold will at 1 3. rewrite En, G2. split; [intros Hm; apply rd_large; assumption|].
        intros Hm ps e. unfold will. cbn [b_size b_pos b_payload]. rewrite Hz. unfold ahead. cbn [b_buf b_sock]. rewrite Es. cbn [firstn prep]. destruct (be_dec l) as [|n] eqn:El.
        * intros [-> ->]. apply rd_empty; assumption.
        * rewrite Nat.sub_0_r, <- El. destruct (takes (be_dec l) ((buf' ++ s) :: rr)) as [[p l']|] eqn:Et; cbn [pre app].
          -- intros (ps' & -> & R). eapply rd_payload; eauto. lia.
          -- intros [-> ->]. apply rd_cut_short; auto. lia.
      + destruct G as (t & G1 & G2). unfold will. rewrite En, G1. apply rd_closed. assumption.
      + destruct G as (t & -> & G1 & G2 & G3 & G4). split; [split; [assumption|exact Hz]|]. split; [exact G4|].
        intros ps e. unfold will. rewrite En. cbn [b_size]. rewrite G1. unfold ahead. cbn [b_buf b_sock]. rewrite (prep_nil _ (portions_nn sc')). destruct (portions_cons sc') as (s & rr & ->). apply rd_lost. assumption.
      + contradiction. }
  unfold read. destruct (read_length cap r) as [[e|] r1].
  - destruct e; try contradiction; exact G.
  - destruct G as (n & En & Hh1 & Hsz & Hpos & HL & HW). rewrite En. destruct (Nat.ltb_spec max n) as [Hm|Hm]; [apply HL; assumption|]. specialize (HW Hm).
    unfold read_payload.
    set (r2 := mkReader (b_size r1) (b_pos r1) (if List.length (b_payload r1) =? n then b_payload r1 else resize0 n (b_payload r1)) (b_buf r1) (b_sock r1)).
    destruct n as [|n0].
    + destruct Hpos as [Hpos|Hpos]; [|lia]. assert (W : will max r [] EEof) by (apply HW; unfold will; rewrite En; auto).
      cbn [payload_loop Nat.add]. replace (b_pos r2) with 0 by (symmetry; assumption). cbn [Nat.sub b_buf r2 b_sock]. fold r2.
      unfold buf_read. destruct (b_buf r1) as [|b buf] eqn:Eb.
      * destruct (Nat.leb_spec cap 0); [lia|]. pose proof (sock_read_portions cap (b_sock r1) Hc Hh1) as S.
        destruct (sock_read cap (b_sock r1)) as [[bs| | |] sc']; try contradiction; [exact W|].
        destruct S as (S1 & S2 & S3). split; [|split].
        -- split; [assumption|]. cbn [b_size r2]. rewrite En. split; [lia|left; reflexivity].
        -- unfold reader_size in *. cbn [b_buf b_sock]. rewrite Eb in Hsz. cbn [List.length] in *. lia.
        -- intros ps e. unfold will at 1. cbn [b_size r2]. rewrite En. intros [E1 E2]. rewrite E1, E2. exact W.
      * exact W.
    + assert (L2 : List.length (b_payload r2) = S n0).
      { cbn [b_payload r2]. destruct (Nat.eqb_spec (List.length (b_payload r1)) (S n0)); [assumption|apply resize0_length]. }
      assert (F2 : firstn (b_pos r2) (b_payload r2) = firstn (b_pos r1) (b_payload r1)).
      { cbn [b_payload b_pos r2]. destruct (Nat.eqb_spec (List.length (b_payload r1)) (S n0)) as [E|E]; [reflexivity|]. destruct Hpos as [Hpos|[_ Hpos]]; [rewrite Hpos; reflexivity|congruence]. }
      pose proof (payload_loop_portions cap (S n0) Hc ltac:(lia) (1 + reader_size r1) r2 Hh1 ltac:(cbn [b_pos r2]; lia) L2 ltac:(change (reader_size r2) with (reader_size r1); lia)) as G.
      rewrite F2 in G. change (ahead r2) with (ahead r1) in G. change (b_pos r2) with (b_pos r1) in G. change (reader_size r2) with (reader_size r1) in G.
      destruct (payload_loop (1 + reader_size r1) cap (S n0) r2) as [[[| | |]|] r3]; try contradiction.
      * apply HW. unfold will. rewrite En, G. cbn. auto.
      * destruct G as (G1 & G2 & G3 & G4 & G5 & G6). split; [split; [assumption|]|].
        { rewrite G1. cbn [b_size r2]. rewrite En. split; [assumption|]. right. auto. }
        split; [lia|]. intros ps e W. apply HW. unfold will in W |- *. rewrite G1 in W. cbn [b_size r2] in W. rewrite En in W |- *. rewrite G4. exact W.
      * destruct G as (G1 & G2 & G3 & G4 & G5 & G6). split; [split; [assumption|cbn; rewrite G1; exact G2]|]. split; [exact G1|]. split; [unfold reader_size in *; cbn [b_buf b_sock]; lia|].
        intros ps e R. apply HW. unfold will. rewrite En, G4. exists ps. split; [reflexivity|exact R].
Qed.
Lemma handle_portions cap max : 0 < cap -> forall fuel r, sane max r -> reader_size r < fuel -> forall ps e, handle fuel cap max r = (ps, e) -> will max r ps e.
Proof.
  intros Hc. induction fuel as [|fuel IH]; intros r Hs Hf ps e; [lia|]. cbn [handle]. pose proof (read_portions cap max r Hc Hs) as G.
  destruct (read cap max r) as [[p|pe] r'].
  - destruct G as (G1 & G2 & G3 & G4). destruct (handle fuel cap max r') as [ps' e'] eqn:E. intros [= <- <-]. apply G4. specialize (IH r' G1 ltac:(lia) _ _ E). unfold will in IH. rewrite G2 in IH. exact IH.
  - destruct pe; try (intros [= <- <-]; exact G). destruct G as (G1 & G2 & G3). intros E. apply G3. apply IH; auto. lia.
Qed.
Lemma reads_fun max l ps e : reads max l ps e -> forall ps' e', reads max l ps' e' -> ps = ps' /\ e = e'.
Proof.
  assert (A : forall (l l' s s' : list N), List.length l = 4 -> List.length l' = 4 -> l ++ s = l' ++ s' -> l = l' /\ s = s') by (intros l0 l0' s s' L L'; apply app_len_inj; lia).
  assert (B : forall l s s0 : list N, List.length l = 4 -> l ++ s = s0 -> List.length s0 < 4 -> False) by (intros l0 s s0 L <-; rewrite app_length; lia).
  induction 1 as [s s' r ps e Hs R IH|s Hs|l s r Hl Hm|l s r Hl Hm|l s r p l' ps e Hl Hm Ht R IH|l s r Hl Hm Ht]; intros ps' e' R'; inversion R'; subst;
    try (exfalso; eapply B; [|reflexivity|]; eassumption); try (exfalso; eapply B; [|symmetry; eassumption|]; eassumption);
    try (match goal with E : _ ++ _ = _ ++ _ |- _ => apply A in E as [<- <-]; [|assumption|assumption] end);
    try lia; auto; try congruence.
  match goal with H1 : takes ?n ?x = Some _, H2 : takes ?n ?x = Some _ |- _ => rewrite H1 in H2; injection H2 as <- <- end.
  match goal with H : reads _ _ _ _ |- _ => destruct (IH _ _ H) as [-> ->] end. auto.
Qed.
