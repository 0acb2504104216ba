(** * Proofs about failing reads *)
From Verif Require Import Base FileModel FaultModel FaultSpec.
From Coq Require Import Lia.
Open Scope list_scope. Open Scope nat_scope.

Lemma split_within bs : bs <> [] -> split_line bs = None -> within_line bs.
Proof.
  induction bs as [|b r IH]; intros N H; [congruence|]. cbn in H.
  destruct (N.eqb b 10) eqn:E; [discriminate|]. apply N.eqb_neq in E.
  destruct r as [|c r]; [exists [], b; auto|].
  destruct (split_line (c :: r)) as [[l s]|]; [discriminate|].
  destruct (IH ltac:(discriminate) Logic.eq_refl) as (bs' & x & -> & X). exists (b :: bs'), x. auto.
Qed.
Lemma split_rest bs l rest : split_line bs = Some (l, rest) -> bs = l ++ rest.
Proof.
  revert l. induction bs as [|b r IH]; intros l H; [discriminate|]. cbn in H.
  destruct (N.eqb b 10); [injection H as <- <-; reflexivity|].
  destruct (split_line r) as [[l' s]|]; [|discriminate]. injection H as <- <-. cbn. f_equal. now apply IH.
Qed.
Lemma within_rest l rest : within_line rest -> within_line (l ++ rest).
Proof. intros (bs & b & -> & B). exists (l ++ bs), b. now rewrite app_assoc. Qed.
(** reads that fail at line starts after [tail] do so after any end of it *)
Lemma starts_rest l rest rs : at_starts (l ++ rest) rs -> at_starts rest rs.
Proof.
  intros H. inversion H as [|? ? ? X|? ? X Y]; subst; constructor; auto.
  intros W. apply X. now apply within_rest.
Qed.
Lemma starts_nil tail rs : at_starts tail rs -> at_starts [] rs.
Proof. intros H. rewrite <- (app_nil_r tail) in H. exact (starts_rest _ _ _ H). Qed.

(** a fetch of a gentle file: the same with ends instead of errors, and nothing partial is left *)
Lemma fetch_gently rs : forall tail acc, (acc <> [] -> within_line tail) -> at_starts tail rs ->
  let '(bs, ok, h) := fetch acc rs in
  exists ok', fetch acc (map as_end rs) = (bs, ok', healed h) /\ gently h /\ (ok = false -> bs = []) /\ (ok = true -> ok' = true).
Proof.
  induction rs as [|g rs IH]; intros tail acc A S.
  - cbn. exists true. repeat split; auto. constructor. congruence.
  - inversion S as [|? bs ? S'|? ? N S']; subst.
    + destruct bs as [|b bs].
      * cbn. exists true. split; [reflexivity|]. split; [exact S'|]. split; congruence.
      * cbn [fetch map as_end]. destruct (split_line (b :: bs)) as [[l rest]|] eqn:L.
        -- exists true. split; [reflexivity|]. split; [|split; congruence]. unfold gently. cbn [h_buf h_reads].
           apply (starts_rest l). rewrite <- (split_rest _ _ _ L). exact S'.
        -- apply (IH (b :: bs)); [|exact S']. intros _. apply split_within; [discriminate|exact L].
    + cbn. exists true. split; [reflexivity|]. split; [exact S'|]. split; [|congruence].
      intros _. destruct acc as [|b acc]; [reflexivity|]. exfalso. apply N, A. discriminate.
Qed.
Lemma until_gently h : gently h ->
  let '(bs, ok, h') := until_newline h in
  exists ok', until_newline (healed h) = (bs, ok', healed h') /\ gently h' /\ (ok = false -> bs = []) /\ (ok = true -> ok' = true).
Proof.
  intros G. unfold until_newline. cbn [healed h_buf h_reads]. unfold gently in G. destruct (h_buf h) as [|b bs] eqn:B.
  - apply (fetch_gently _ [] []); [congruence|exact G].
  - destruct (split_line (b :: bs)) as [[l rest]|] eqn:L.
    + exists true. split; [reflexivity|]. split; [|split; congruence]. unfold gently. cbn [h_buf h_reads].
      apply (starts_rest l). rewrite <- (split_rest _ _ _ L). exact G.
    + apply (fetch_gently _ (b :: bs)); [|exact G]. intros _. apply split_within; [discriminate|exact L].
Qed.

Section Fault.
Variable utf8_ok : bytes -> bool.
Variable max : nat.
Notation read := (read utf8_ok).
Notation poll := (poll utf8_ok max).
Notation polls := (polls utf8_ok max).
Notation serve := (serve utf8_ok max).

Lemma poll_gently fuel : forall sofar h, gently h ->
  exists ls h', poll fuel sofar h [] = Some (ls, h', []) /\ poll fuel sofar (healed h) [] = Some (ls, healed h', []) /\ gently h'.
Proof.
  induction fuel as [|fuel IH]; intros sofar h G; [exists [], h; repeat split; auto|].
  cbn [FaultModel.poll]. unfold FaultModel.read. pose proof (until_gently h G) as U.
  destruct (until_newline h) as [[bs ok] h']. destruct U as (ok' & -> & G' & F & T). cbn beta iota.
  destruct (utf8_ok bs).
  2:{ exists [], h'. auto. }
  destruct ok.
  - rewrite (T Logic.eq_refl). destruct bs as [|b bs]; [exists [], h'; auto|]. cbn [app]. rewrite Nat.eqb_refl.
    destruct (List.length (pop (b :: bs))) as [|n] eqn:L.
    + destruct (pop (b :: bs)); [|discriminate]. exists [], h'. auto.
    + destruct (max <? sofar + S n); [exists [pop (b :: bs)], h'; auto|].
      destruct (IH (sofar + S n) h' G') as (ls & h2 & -> & -> & G2). exists (pop (b :: bs) :: ls), h2. auto.
  - rewrite (F Logic.eq_refl). cbn. destruct ok'; exists [], h'; auto.
Qed.
Lemma polls_gently m : (forall p h, In (p, h) m -> gently h) ->
  exists ls m', polls m [] = Some (ls, m', []) /\ polls (heal m) [] = Some (ls, heal m', []) /\ (forall p h, In (p, h) m' -> gently h).
Proof.
  induction m as [|[p h] m IH]; intros G; [exists [], []; repeat split; auto; contradiction|].
  cbn [FaultModel.polls heal map fst snd].
  destruct (poll_gently (S max) 0 h (G p h (or_introl Logic.eq_refl))) as (ls & h' & -> & -> & G').
  destruct (IH (fun q k I => G q k (or_intror I))) as (ls' & m' & -> & E & GM). unfold heal in E. rewrite E.
  exists (map (fun l => (p, l)) ls ++ ls'), ((p, h') :: m'). repeat split; auto.
  intros q k [I|I]; [injection I as <- <-; exact G'|exact (GM q k I)].
Qed.
Lemma serve_gently before before' : Forall2 (fun f f' => comes_or_stays gently f /\ forall m, heal (f m) = f' (heal m)) before before' ->
  forall m, (forall p h, In (p, h) m -> gently h) -> serve before m [] = serve before' (heal m) [] /\ snd (serve before m []) = true.
Proof.
  induction 1 as [|f f' bs bs' [K E] _ IH]; intros m G; [split; reflexivity|]. cbn [FaultModel.serve].
  destruct (polls_gently (f m) (K m G)) as (ls & m' & P & P' & G'). rewrite P, <- (E m), P'.
  destruct (IH m' G') as [-> A]. destruct (serve bs' (heal m') []) as [l a] eqn:Q. split; [reflexivity|].
  exact A.
Qed.

(** ** once part of a line is left in the buffer *)
Lemma poll_left fuel sofar h text : text <> [] -> match poll fuel sofar h text with Some (ls, _, t) => ls = [] /\ t <> [] | None => True end.
Proof.
  intros T. destruct fuel as [|fuel]; [cbn; auto|]. cbn [FaultModel.poll]. unfold FaultModel.read.
  assert (A : forall x, text ++ x <> []) by (intros x E; apply app_eq_nil in E as [E _]; congruence).
  destruct (until_newline h) as [[bs ok] h']. destruct (utf8_ok bs); [|auto].
  destruct ok; [|auto]. destruct bs as [|b bs]; [auto|].
  destruct (Nat.eqb (List.length (b :: bs)) (List.length (text ++ b :: bs))) eqn:E; [|trivial].
  apply Nat.eqb_eq in E. rewrite app_length in E. destruct text; [congruence|cbn in E; lia].
Qed.
Lemma polls_left m : forall text, text <> [] -> match polls m text with Some (ls, _, t) => ls = [] /\ t <> [] | None => True end.
Proof.
  induction m as [|[p h] m IH]; intros text T; [cbn; auto|]. cbn [FaultModel.polls].
  pose proof (poll_left (S max) 0 h text T) as L. destruct (poll (S max) 0 h text) as [[[ls h'] t]|]; [|trivial].
  destruct L as [-> T']. specialize (IH t T'). destruct (polls m t) as [[[ls' m'] t2]|]; [|trivial].
  destruct IH as [-> T2]. auto.
Qed.
Lemma serve_left before : forall m text, text <> [] -> fst (serve before m text) = [].
Proof.
  induction before as [|f before IH]; intros m text T; [reflexivity|]. cbn [FaultModel.serve].
  pose proof (polls_left (f m) text T) as L. destruct (polls (f m) text) as [[[ls m'] t]|]; [|reflexivity].
  destruct L as [-> T']. specialize (IH m' t T'). destruct (serve before m' t). cbn in *. exact IH.
Qed.
(** the thread panics when a file then has bytes *)
Lemma polls_line m1 m2 p h text : text <> [] ->
  (let '(bs, ok, _) := until_newline h in ok = true /\ bs <> [] /\ utf8_ok bs = true) ->
  polls (m1 ++ (p, h) :: m2) text = None.
Proof.
  intros T L. revert text T. induction m1 as [|[q k] m1 IH]; intros text T; cbn [app FaultModel.polls].
  - cbn [FaultModel.poll]. unfold FaultModel.read. destruct (until_newline h) as [[bs ok] h']. destruct L as (-> & N & ->).
    destruct bs as [|b bs]; [congruence|]. rewrite app_length.
    destruct (Nat.eqb (List.length (b :: bs)) (List.length text + List.length (b :: bs))) eqn:E; [|reflexivity].
    apply Nat.eqb_eq in E. destruct text; [congruence|cbn in E; lia].
  - pose proof (poll_left (S max) 0 k text T) as P. destruct (poll (S max) 0 k text) as [[[ls k'] t]|]; [|reflexivity].
    destruct P as [_ T']. now rewrite (IH t T').
Qed.
(** a file that fails within a line *)
Lemma poll_breaks bs rs text : bs <> [] -> ~ In 10%N bs -> utf8_ok bs = true ->
  poll (S max) 0 (mkHandle [] (Got bs :: Broke :: rs)) text = Some ([], mkHandle [] rs, text ++ bs).
Proof.
  intros N L U. cbn [FaultModel.poll]. unfold FaultModel.read, until_newline. cbn [h_buf h_reads fetch].
  assert (E : split_line bs = None).
  { clear N U. induction bs as [|b r IH]; [reflexivity|]. cbn in L |- *.
    destruct (N.eqb b 10) eqn:E; [apply N.eqb_eq in E; subst; exfalso; auto|]. rewrite IH; auto. }
  destruct bs as [|b bs]; [congruence|]. rewrite E. cbn [app fetch]. now rewrite U.
Qed.
Lemma polls_app m1 : forall m2 text, polls (m1 ++ m2) text =
  match polls m1 text with
  | None => None
  | Some (ls, m, t) => match polls m2 t with None => None | Some (ls', m', t') => Some (ls ++ ls', m ++ m', t') end
  end.
Proof.
  induction m1 as [|[p h] m1 IH]; intros m2 text; cbn [app FaultModel.polls].
  - destruct (polls m2 text) as [[[ls m] t]|]; reflexivity.
  - destruct (poll (S max) 0 h text) as [[[ls h'] t]|]; [|reflexivity]. rewrite IH.
    destruct (polls m1 t) as [[[ls1 m1'] t1]|]; [|reflexivity].
    destruct (polls m2 t1) as [[[ls2 m2'] t2]|]; [|reflexivity]. now rewrite app_assoc.
Qed.
End Fault.

(** ** the lines of a file however its bytes are cut *)
Lemma split_first l rest : ~ In 10%N l -> split_line (l ++ 10%N :: rest) = Some (l ++ [10%N], rest).
Proof.
  induction l as [|b l IH]; intros N; cbn; [reflexivity|]. destruct (N.eqb b 10) eqn:E; [apply N.eqb_eq in E; subst; exfalso; apply N; now left|].
  rewrite IH; [reflexivity|]. intros X. apply N. now right.
Qed.
Lemma split_no l : ~ In 10%N l -> split_line l = None.
Proof.
  induction l as [|b l IH]; intros N; cbn; [reflexivity|]. destruct (N.eqb b 10) eqn:E; [apply N.eqb_eq in E; subst; exfalso; apply N; now left|].
  rewrite IH; [reflexivity|]. intros X. apply N. now right.
Qed.
(** a prefix of a text that begins with a line: it is within the line, or has it *)
Lemma cut_line bs more l rest : ~ In 10%N l -> bs ++ more = l ++ 10%N :: rest ->
  (exists x, bs = l ++ 10%N :: x /\ rest = x ++ more) \/ (exists y, l = bs ++ y /\ more = y ++ 10%N :: rest).
Proof.
  revert l. induction bs as [|b bs IH]; intros l N E; [right; exists l; auto|]. destruct l as [|c l]; cbn in E; injection E as -> E.
  - left. exists bs. auto.
  - destruct (IH l ltac:(intros X; apply N; now right) E) as [(x & -> & ->)|(y & -> & ->)]; [left; exists x; auto|right; exists y; auto].
Qed.
Lemma fetch_line pieces : forall acc l rest, Forall (fun bs => bs <> []) pieces -> ~ In 10%N (acc ++ l) -> List.concat pieces = l ++ 10%N :: rest ->
  exists h', fetch acc (map Got pieces) = (acc ++ l ++ [10%N], true, h') /\ holds h' rest.
Proof.
  induction pieces as [|p pieces IH]; intros acc l rest F N E; [destruct l; discriminate|]. inversion F as [|? ? Np F']; subst. cbn [List.concat] in E.
  assert (Nl : ~ In 10%N l) by (intros X; apply N; apply in_or_app; now right).
  cbn [map fetch]. destruct p as [|b p']; [congruence|]. clear Np. set (p := b :: p') in *. clearbody p. clear b p'.
  destruct (cut_line _ _ _ _ Nl E) as [(x & -> & ->)|(y & -> & E')].
  - rewrite (split_first _ _ Nl). eexists. split; [reflexivity|]. exists pieces. auto.
  - rewrite (split_no p) by (intros X; apply Nl, in_or_app; now left).
    destruct (IH (acc ++ p) y rest F') as (h' & -> & H'); [rewrite <- app_assoc; exact N|exact E'|]. exists h'. split; [now rewrite <- !app_assoc|exact H'].
Qed.
Lemma until_line h l rest : ~ In 10%N l -> holds h (l ++ 10%N :: rest) -> exists h', until_newline h = (l ++ [10%N], true, h') /\ holds h' rest.
Proof.
  intros N (pieces & R & F & E). unfold until_newline. rewrite R. destruct (h_buf h) as [|b bs] eqn:B.
  - apply (fetch_line pieces [] l rest F); [exact N|now symmetry].
  - rewrite <- B in *. clear b bs B. symmetry in E. destruct (cut_line _ _ _ _ N E) as [(x & Ex & ->)|(y & -> & E')].
    + rewrite Ex, (split_first _ _ N). eexists. split; [reflexivity|]. exists pieces. auto.
    + rewrite (split_no (h_buf h)) by (intros X; apply N, in_or_app; now left). rewrite <- app_assoc. now apply fetch_line.
Qed.
Lemma until_end h : holds h [] -> exists h', until_newline h = ([], true, h').
Proof.
  intros (pieces & R & F & E). symmetry in E. apply app_eq_nil in E as [B E]. unfold until_newline. rewrite B, R.
  destruct F as [|p ps P F]; [eexists; reflexivity|]. cbn in E. apply app_eq_nil in E as [-> _]. congruence.
Qed.
Lemma pop_line l : pop (l ++ [10%N]) = l.
Proof. unfold pop. rewrite rev_app_distr. cbn. apply rev_involutive. Qed.
Lemma read_until_line u h l rest : ~ In 10%N l -> u (l ++ [10%N]) = true -> holds h (l ++ 10%N :: rest) ->
  exists h', read u h [] = (Bytes (List.length l), h', l) /\ holds h' rest.
Proof.
  intros N U H. destruct (until_line h l rest N H) as (h' & E & H'). unfold read. rewrite E, U. cbn [app]. exists h'. split; [|exact H'].
  destruct (l ++ [10%N]) eqn:X; [destruct l; discriminate|]. rewrite <- X, Nat.eqb_refl, pop_line. reflexivity.
Qed.
Lemma poll_lines u max : forall ls h sofar fuel, u [] = true ->
  Forall (fun l => l <> [] /\ ~ In 10%N l /\ u (l ++ [10%N]) = true) ls -> holds h (List.concat (map (fun l => l ++ [10%N]) ls)) ->
  sofar + List.length (List.concat ls) <= max -> List.length ls < fuel ->
  exists h', poll u max fuel sofar h [] = Some (ls, h', []).
Proof.
  induction ls as [|l ls IH]; intros h sofar fuel U0 F H M L.
  - destruct fuel as [|fuel]; [lia|]. cbn [poll]. unfold read. destruct (until_end h H) as (h' & ->). rewrite U0. cbn. eauto.
  - inversion F as [|? ? (N & L1 & U1) F']; subst. destruct fuel as [|fuel]; [lia|]. cbn [poll].
    cbn [map List.concat] in H. rewrite <- app_assoc in H. cbn [app] in H. destruct (read_until_line u h l _ L1 U1 H) as (h1 & -> & H1).
    cbn [List.concat List.length] in M, L. rewrite app_length in M. destruct (List.length l) as [|n] eqn:El; [destruct l; [congruence|discriminate]|].
    destruct (Nat.ltb_spec max (sofar + Datatypes.S n)); [lia|].
    destruct (IH h1 (sofar + Datatypes.S n) fuel U0 F' H1 ltac:(lia) ltac:(lia)) as (h' & ->). eauto.
Qed.
