(** * Proofs for ScrapedSpec. *)
From Verif Require Import Base BaseFacts TelemetryModel WavefrontModel PrometheusModel ScrapedSpec.
From Coq Require Import Lia.
Open Scope string_scope. Open Scope list_scope. Open Scope nat_scope.

Lemma all_impl (p q : ascii -> bool) s : (forall c, p c = true -> q c = true) -> all_chars p s = true -> all_chars q s = true.
Proof. intros H. induction s as [|c s IH]; [reflexivity|]. cbn. rewrite !andb_true_iff. intuition. Qed.
Lemma all_app p a b : all_chars p (a ++ b)%string = andb (all_chars p a) (all_chars p b).
Proof. induction a as [|c a IH]; [reflexivity|]. cbn. rewrite IH. apply andb_assoc. Qed.
Lemma sassoc (a b c : string) : ((a ++ b) ++ c = a ++ (b ++ c))%string.
Proof. induction a as [|x a IH]; cbn; congruence. Qed.
Lemma snil (a : string) : (a ++ "" = a)%string.
Proof. induction a as [|x a IH]; cbn; congruence. Qed.

(** characters *)
Ltac chars := let c := fresh in intros c; destruct c as [[] [] [] [] [] [] [] []]; vm_compute; intros; congruence.
Lemma letter_label c : letter c = true -> label_char c = true. Proof. revert c. chars. Qed.
Lemma label_metric c : label_char c = true -> metric_char c = true. Proof. revert c. chars. Qed.
Lemma metric_visible c : metric_char c = true -> negb (orb (is_blank c) (Ascii.eqb c lf)) = true. Proof. revert c. chars. Qed.
Lemma label_not c : label_char c = true -> is_blank c = false /\ Ascii.eqb c "}" = false. Proof. revert c. intros c; destruct c as [[] [] [] [] [] [] [] []]; vm_compute; intros; split; congruence. Qed.
Lemma metric_hash c : metric_char c = true -> Ascii.eqb "#" c = false /\ is_blank c = false. Proof. revert c. intros c; destruct c as [[] [] [] [] [] [] [] []]; vm_compute; intros; split; congruence. Qed.

(** lines *)
Lemma text_lines_cut a b : all_chars (fun c => negb (Ascii.eqb c lf)) a = true -> text_lines (a ++ String lf b)%string = a :: text_lines b.
Proof.
  induction a as [|c a IH]; [reflexivity|]. cbn [all_chars String.append]. rewrite andb_true_iff. intros [H1 H2]. cbn [text_lines].
  destruct (Ascii.eqb c lf); [discriminate|]. rewrite IH by exact H2. reflexivity.
Qed.
(** spans *)
Lemma span_all p a b : all_chars p a = true -> starts p b = false -> span p (a ++ b)%string = (a, b).
Proof.
  intros H Hb. induction a as [|c a IH].
  - destruct b as [|d b]; [reflexivity|]. cbn in Hb |- *. rewrite Hb. reflexivity.
  - cbn in H |- *. apply andb_true_iff in H as [-> H]. rewrite (IH H). reflexivity.
Qed.
Lemma span_eq p a : seqb (snd (span p a)) "" = true -> all_chars p a = true.
Proof.
  intros H. apply seqb_eq in H. induction a as [|c a IH]; [reflexivity|]. cbn in *. destruct (p c); [|discriminate]. destruct (span p a) as [x y]. cbn in *. rewrite IH; auto.
Qed.
Lemma skip_id s : starts is_blank s = false -> skip s = s.
Proof. destruct s as [|c s]; [reflexivity|]. cbn. intros H. unfold skip. cbn. rewrite H. reflexivity. Qed.
Lemma skip_blank s : starts is_blank s = false -> skip (String " " s) = s.
Proof. intros H. assert (E := skip_id s H). unfold skip in *. cbn. destruct (span is_blank s). exact E. Qed.
Lemma starts_app p a b : a <> "" -> starts p (a ++ b)%string = starts p a.
Proof. destruct a; [congruence|reflexivity]. Qed.
Lemma metric_name_chars n : metric_name n = true -> all_chars metric_char n = true /\ n <> "".
Proof. unfold metric_name. rewrite andb_true_iff. intros [H1 H2]. split; [apply span_eq; exact H2|]. destruct n; [discriminate|congruence]. Qed.
Lemma label_name_chars n : label_name n = true -> all_chars label_char n = true /\ n <> "".
Proof. unfold label_name. rewrite andb_true_iff. intros [H1 H2]. split; [apply span_eq; exact H2|]. destruct n; [discriminate|congruence]. Qed.
Lemma metric_name_suffix n x : metric_name n = true -> all_chars metric_char x = true -> metric_name (n ++ x) = true.
Proof.
  intros H Hx. destruct (metric_name_chars n H) as [H1 H2]. unfold metric_name in *. apply andb_true_iff in H as [H _]. rewrite starts_app by exact H2. rewrite H.
  assert (E : span metric_char ((n ++ x) ++ "")%string = ((n ++ x)%string, "")) by (apply span_all; [rewrite all_app, H1; exact Hx|reflexivity]). rewrite snil in E. rewrite E. reflexivity.
Qed.

(** tokens *)
Definition visible (s : string) : Prop := s <> "" /\ all_chars (fun c => negb (is_blank c)) s = true.
Lemma tokens_one a : visible a -> tokens a = [a].
Proof.
  intros [H1 H2]. induction a as [|c a IH]; [congruence|]. cbn [all_chars] in H2. apply andb_true_iff in H2 as [Hc H2]. apply negb_true_iff in Hc. cbn [tokens]. rewrite Hc.
  destruct a as [|d a]; [reflexivity|]. rewrite IH; [|congruence|exact H2]. cbn in H2. apply andb_true_iff in H2 as [Hd _]. apply negb_true_iff in Hd. rewrite Hd. reflexivity.
Qed.
Lemma tokens_cut a b : visible a -> tokens (a ++ String " " b)%string = a :: tokens b.
Proof.
  intros [H1 H2]. induction a as [|c a IH]; [congruence|]. cbn [all_chars] in H2. apply andb_true_iff in H2 as [Hc H2]. apply negb_true_iff in Hc. cbn [String.append tokens]. rewrite Hc.
  destruct a as [|d a]; [reflexivity|]. rewrite IH; [|congruence|exact H2]. cbn in H2. apply andb_true_iff in H2 as [Hd _]. apply negb_true_iff in Hd. cbn [String.append]. rewrite Hd. reflexivity.
Qed.
Lemma tokens_blank b : tokens (String " " b) = tokens b. Proof. reflexivity. Qed.
Ltac token_chars := intros [[] [] [] [] [] [] [] []]; vm_compute; congruence.
Lemma token_visible s : token s -> visible s /\ quotable s.
Proof. intros [H1 H2]. split; [split; [exact H1|]|]; eapply all_impl; try exact H2; token_chars. Qed.
Lemma token_line s : token s -> all_chars (fun c => negb (Ascii.eqb c lf)) s = true.
Proof. intros [H1 H2]. eapply all_impl; try exact H2; token_chars. Qed.
Lemma token_brace s : token s -> labelled s = Some ([], s).
Proof. intros [H1 H2]. destruct s as [|c s]; [reflexivity|]. cbn in H2. apply andb_true_iff in H2 as [H2 _]. revert H2. destruct c as [[] [] [] [] [] [] [] []]; try reflexivity; vm_compute; congruence. Qed.
Lemma quotable_line s : quotable s -> all_chars (fun c => negb (Ascii.eqb c lf)) s = true.
Proof. intros H2. eapply all_impl; try exact H2; intros c; cbv beta; destruct (Ascii.eqb c dquote), (Ascii.eqb c backslash), (Ascii.eqb c lf); cbn; congruence. Qed.

(** label values *)
Lemma quoted_plain v rest : quotable v -> quoted (v ++ String dquote rest)%string = Some (v, rest).
Proof.
  unfold quotable. induction v as [|c v IH]; [reflexivity|]. cbn [all_chars String.append]. rewrite andb_true_iff. intros [H1 H2]. cbn [quoted].
  destruct (Ascii.eqb c dquote); [discriminate|]. destruct (Ascii.eqb c backslash); [discriminate|]. rewrite IH by exact H2. reflexivity.
Qed.

(** labels *)
Definition kvt (k v rest : string) : string := (k ++ String "=" (String dquote (v ++ String dquote rest)))%string.
Fixpoint kvs (tags : list (string * string)) (rest : string) : string :=
  match tags with
  | [] => rest
  | (k, v) :: r => match r with [] => kvt k v (String "}" rest) | _ => kvt k v (String "," (String " " (kvs r rest))) end
  end.
Definition fit (kv : string * string) : Prop := label_name (fst kv) = true /\ quotable (snd kv).
Lemma kvs_starts k v r rest : label_name k = true -> exists c s, kvs ((k, v) :: r) rest = String c s /\ is_blank c = false /\ Ascii.eqb c "}" = false.
Proof.
  intros H. destruct (label_name_chars k H) as [H1 H2]. destruct k as [|c k]; [congruence|]. cbn in H1. apply andb_true_iff in H1 as [H1 _]. destruct (label_not c H1) as [H3 H4].
  cbn [kvs]. destruct r; unfold kvt; cbn [String.append]; eauto.
Qed.
Lemma labels_kvs tags : forall fuel s rest, tags <> [] -> Forall fit tags -> List.length tags <= fuel -> skip s = kvs tags rest -> labels fuel s = Some (tags, rest).
Proof.
  induction tags as [|(k, v) tags IH]; intros fuel s rest Hne Hf Hl Hs; [congruence|]. inversion Hf as [|? ? [F1 F2] F3]; subst. cbn [fst snd] in *.
  destruct fuel as [|fuel]; [cbn in Hl; lia|]. cbn [List.length] in Hl. cbn [labels]. rewrite Hs. destruct (kvs_starts k v tags rest F1) as (c & x & E & Ec & Ec'). rewrite E at 1. cbn iota. rewrite Ec'. clear E Ec Ec' c x.
  destruct (label_name_chars k F1) as [K1 K2].
  assert (X : forall t, span label_char (kvt k v t) = (k, String "=" (String dquote (v ++ String dquote t)))).
  { intros t. unfold kvt. apply span_all; [exact K1|reflexivity]. }
  destruct tags as [|kv' tags].
  - cbn [kvs]. rewrite X. rewrite F1. rewrite (skip_id (String "=" _)) by reflexivity. cbn iota beta. rewrite (skip_id (String dquote _)) by reflexivity. cbn iota beta. change (Ascii.eqb dquote dquote) with true. cbn iota. rewrite quoted_plain by exact F2. rewrite (skip_id (String "}" _)) by reflexivity. reflexivity.
  - cbn [kvs]. rewrite X. rewrite F1. rewrite (skip_id (String "=" _)) by reflexivity. cbn iota beta. rewrite (skip_id (String dquote _)) by reflexivity. cbn iota beta. change (Ascii.eqb dquote dquote) with true. cbn iota. rewrite quoted_plain by exact F2. rewrite (skip_id (String "," _)) by reflexivity. cbn iota beta.
    rewrite (IH fuel _ rest); [reflexivity|congruence|exact F3|cbn in *; lia|]. destruct kv' as (k', v'). inversion F3 as [|? ? [G1 _] _]; subst. destruct (kvs_starts k' v' tags rest G1) as (c & x & E & Ec & _). change (kvs ((k', v') :: tags) rest) with (kvs ((k', v') :: tags) rest) in *.
    rewrite skip_blank; [reflexivity|]. cbn [kvs] in E |- *. rewrite E. cbn. exact Ec.
Qed.
Lemma kvs_length tags : forall rest, List.length tags <= String.length (kvs tags rest).
Proof.
  assert (L : forall a b, String.length (a ++ b)%string = String.length a + String.length b) by (induction a; intros; cbn; auto).
  induction tags as [|(k, v) tags IH]; intros rest; [cbn; lia|]. cbn [kvs List.length]. destruct tags as [|kv' tags]; unfold kvt; rewrite L; cbn [String.length]; rewrite L; cbn [String.length]; [cbn; lia|]. specialize (IH rest). lia.
Qed.
Lemma kvs_text k v tags rest : ((kv k v ++ String.concat "" (map (fun p => ", " ++ kv (fst p) (snd p)) tags) ++ "}") ++ rest = kvs ((k, v) :: tags) rest)%string.
Proof.
  revert k v. induction tags as [|(k', v') tags IH]; intros k v.
  - cbn [kvs map String.concat]. unfold kv, kvt, quote. repeat (progress (rewrite ?sassoc; cbn [String.append])). reflexivity.
  - change (kvs ((k, v) :: (k', v') :: tags) rest) with (kvt k v (String "," (String " " (kvs ((k', v') :: tags) rest)))). rewrite <- (IH k' v'). clear IH. unfold kvt. cbn [map fst snd].
    assert (C : forall x l, String.concat "" (x :: l) = (x ++ String.concat "" l)%string) by (intros x [|y l]; cbn; [rewrite snil; reflexivity|reflexivity]).
    rewrite C. unfold kv at 1. unfold quote at 1 2. repeat (progress (rewrite ?sassoc; cbn [String.append])). reflexivity.
Qed.

(** a sample *)
Lemma distinct_iff l : NoDup l -> distinct l = true.
Proof.
  induction 1 as [|x l Hx Hl IH]; [reflexivity|]. cbn. rewrite IH, andb_true_r. apply negb_true_iff. destruct (existsb (seqb x) l) eqn:E; [|reflexivity].
  apply existsb_exists in E as (y & Hy & E). apply seqb_eq in E. congruence.
Qed.
Lemma sample_ok name tags v : metric_name name = true -> Forall fit tags -> NoDup (map fst tags) -> token v ->
  line_of (match tags with [] => name ++ String " " v | _ => name ++ String "{" (kvs tags (String " " v)) end)%string = Some [SSample name tags v].
Proof.
  intros Hn Hf Hd Hv. destruct (metric_name_chars name Hn) as [N1 N2]. destruct (token_visible v Hv) as [V1 _].
  set (s := (match tags with [] => name ++ String " " v | _ => name ++ String "{" (kvs tags (String " " v)) end)%string).
  assert (Hs : exists r, s = (name ++ r)%string /\ starts metric_char r = false /\
     labelled (skip r) = Some (tags, match tags with [] => v | _ => String " " v end)).
  { unfold s. destruct tags as [|kv tags].
    - exists (String " " v). split; [reflexivity|]. split; [reflexivity|]. rewrite skip_blank; [apply token_brace; exact Hv|].
      destruct V1 as [V0 V1]. destruct v as [|c v]; [reflexivity|]. cbn in *. destruct (is_blank c); [discriminate|reflexivity].
    - exists (String "{" (kvs (kv :: tags) (String " " v))). split; [reflexivity|]. split; [reflexivity|]. rewrite (skip_id (String "{" _)) by reflexivity.
      cbn [labelled]. change (Ascii.eqb "{" "{") with true. cbn iota. apply labels_kvs; [congruence|exact Hf|apply kvs_length|]. destruct kv as (k, x). inversion Hf as [|? ? [F1 _] _]; subst. destruct (kvs_starts k x tags (String " " v) F1) as (c & y & E & Ec & _).
      apply skip_id. rewrite E. exact Ec. }
  destruct Hs as (r & Es & Hr & El). clearbody s. subst s.
  assert (T : tokens (match tags with [] => v | _ => String " " v end) = [v]) by (destruct tags; [|rewrite tokens_blank]; apply tokens_one; exact V1).
  assert (S1 : starts (Ascii.eqb "#") (name ++ r) = false /\ starts is_blank (name ++ r) = false).
  { rewrite !starts_app by exact N2. destruct name as [|c name]; [congruence|]. cbn in N1 |- *. apply andb_true_iff in N1 as [N1 _]. apply metric_hash. exact N1. }
  destruct S1 as [S1 S2]. unfold line_of. rewrite S1. rewrite (skip_id _ S2). replace (seqb (name ++ r) "") with false by (destruct name; [congruence|reflexivity]).
  unfold sample_line. rewrite (span_all metric_char name r N1 Hr). rewrite Hn, El. rewrite distinct_iff by exact Hd. rewrite T. reflexivity.
Qed.
Lemma type_ok n k : metric_name n = true -> In k ["counter"; "gauge"; "histogram"; "summary"] -> line_of ("# TYPE " ++ n ++ " " ++ k) = Some [SType n k].
Proof.
  intros Hn Hk. destruct (metric_name_chars n Hn) as [N1 N2].
  assert (Vn : visible n) by (split; [exact N2|eapply all_impl; [|exact N1]; intros [[] [] [] [] [] [] [] []]; vm_compute; congruence]).
  assert (Vk : visible k /\ existsb (seqb k) kinds = true) by (cbn in Hk; decompose [or] Hk; subst; try contradiction; (split; [split; [discriminate|reflexivity]|reflexivity])).
  destruct Vk as [Vk Ek]. unfold line_of. change (starts (Ascii.eqb "#") ("# TYPE " ++ n ++ " " ++ k)) with true. cbn iota.
  change ("# TYPE " ++ n ++ " " ++ k)%string with ("#" ++ String " " ("TYPE" ++ String " " (n ++ String " " k)))%string.
  rewrite !tokens_cut; [|exact Vn|split; [discriminate|reflexivity]|split; [discriminate|reflexivity]]. rewrite tokens_one by exact Vk. rewrite Hn, Ek. reflexivity.
Qed.

(** whole texts *)
Lemma lines_of_text (ls : list (string * scraped)) :
  Forall (fun p => all_chars (fun c => negb (Ascii.eqb c lf)) (fst p) = true /\ line_of (fst p) = Some [snd p]) ls ->
  all_lines (text_lines (fold_right String.append "" (map (fun p => fst p ++ nl)%string ls))) = Some (map snd ls).
Proof.
  induction 1 as [|(s, x) ls [H1 H2] H IH]; [reflexivity|]. cbn [map fold_right fst snd] in *. rewrite sassoc. change (nl ++ ?x)%string with (String lf x). rewrite text_lines_cut by exact H1.
  cbn [all_lines]. destruct (text_lines _) as [|t ts] eqn:E; [destruct ls as [|(s', x') ls]; discriminate|]. rewrite <- E in *. rewrite H2, IH. reflexivity.
Qed.

(** ** Lines of the sink *)
Section Sink.
Context `{Q : QLib}.
Variables (show_f : f64 -> string) (show_n : N -> string).
Hypothesis Hf : forall x, token (show_f x).
Hypothesis Hn : forall n, token (show_n n).
Definition pline_fit (l : pline) : Prop :=
  match l with
  | PType n k => metric_name n = true /\ In k ["counter"; "gauge"; "histogram"; "summary"]
  | PSample n own tags v =>
      let ls := match own with Some kv => [kv] | None => [] end ++ tags in
      metric_name n = true /\ Forall fit ls /\ NoDup (map fst ls)
  end.
Lemma no_lf_name n : metric_name n = true -> all_chars (fun c => negb (Ascii.eqb c lf)) n = true.
Proof. intros H. eapply all_impl; [|apply metric_name_chars; exact H]. token_chars. Qed.
Lemma no_lf_kvs tags rest : Forall fit tags -> all_chars (fun c => negb (Ascii.eqb c lf)) rest = true -> all_chars (fun c => negb (Ascii.eqb c lf)) (kvs tags rest) = true.
Proof.
  intros H Hr. induction H as [|(k, v) tags [F1 F2] F3 IH]; [exact Hr|]. cbn [fst snd] in *.
  assert (K : all_chars (fun c => negb (Ascii.eqb c lf)) k = true) by (eapply all_impl; [|apply label_name_chars; exact F1]; token_chars).
  assert (V := quotable_line v F2).
  assert (X : forall t, all_chars (fun c => negb (Ascii.eqb c lf)) t = true -> all_chars (fun c => negb (Ascii.eqb c lf)) (kvt k v t) = true).
  { intros t Ht. unfold kvt. rewrite all_app, K. cbn [all_chars andb]. change (negb (Ascii.eqb "=" lf)) with true. change (negb (Ascii.eqb dquote lf)) with true. cbn [andb]. rewrite all_app, V. cbn [all_chars]. change (negb (Ascii.eqb dquote lf)) with true. exact Ht. }
  cbn [kvs]. destruct tags; apply X; cbn [all_chars]; [exact Hr|exact IH].
Qed.
Lemma render_ok l : pline_fit l -> exists s, render_line show_f show_n l = (s ++ nl)%string /\ all_chars (fun c => negb (Ascii.eqb c lf)) s = true /\ line_of s = Some [seen_line show_f show_n l].
Proof.
  destruct l as [n k|n own tags v]; cbn [pline_fit seen_line]; cbv zeta.
  - intros [H1 H2]. exists ("# TYPE " ++ n ++ " " ++ k)%string. split; [unfold render_line; rewrite !sassoc; reflexivity|]. split; [|apply type_ok; assumption].
    rewrite all_app. apply andb_true_iff. split; [reflexivity|]. rewrite all_app, no_lf_name by exact H1. cbn [andb]. rewrite all_app. apply andb_true_iff. split; [reflexivity|]. cbn in H2. decompose [or] H2; subst; try contradiction; reflexivity.
  - intros (H1 & H2 & H3). set (ls := match own with Some kv => [kv] | None => [] end ++ tags) in *.
    assert (Hv : token (show_num show_f show_n v)) by (destruct v; [apply Hf|apply Hn]). change (match v with QF x => show_f x | QN x => show_n x end) with (show_num show_f show_n v).
    set (tv := show_num show_f show_n v) in *.
    exists (match ls with [] => n ++ String " " tv | _ => n ++ String "{" (kvs ls (String " " tv)) end)%string. split; [|split; [|apply sample_ok; assumption]].
    + assert (X : forall k x r, (n ++ "{" ++ kv k x ++ String.concat "" (map (fun p => ", " ++ kv (fst p) (snd p)) r) ++ "} " ++ tv ++ nl)%string = ((n ++ String "{" (kvs ((k, x) :: r) (String " " tv))) ++ nl)%string).
      { intros k x r. rewrite <- kvs_text. repeat (progress (rewrite ?sassoc; cbn [String.append])). reflexivity. }
      unfold ls. cbn [render_line]. fold tv. destruct own as [(k, x)|].
      * cbn [List.app]. apply X.
      * cbn [List.app]. destruct tags as [|(k, x) tags]; [cbn [write_tags String.append]; rewrite sassoc; reflexivity|]. rewrite <- X. unfold write_tags. repeat (progress (rewrite ?sassoc; cbn [String.append])). reflexivity.
    + assert (Tv := token_line tv Hv). assert (Nn := no_lf_name n H1). destruct ls as [|kv ls']; rewrite all_app, Nn; cbn [all_chars andb]; [exact Tv|]. change (negb (Ascii.eqb "{" lf)) with true. apply no_lf_kvs; [exact H2|]. cbn [all_chars]. exact Tv.
Qed.
Lemma scrape_lines ls : Forall pline_fit ls -> all_lines (text_lines (fold_right String.append "" (map (render_line show_f show_n) ls))) = Some (map (seen_line show_f show_n) ls).
Proof.
  intros H. assert (X : exists ps, map (render_line show_f show_n) ls = map (fun p => fst p ++ nl)%string ps /\ map (seen_line show_f show_n) ls = map snd ps /\
    Forall (fun p => all_chars (fun c => negb (Ascii.eqb c lf)) (fst p) = true /\ line_of (fst p) = Some [snd p]) ps).
  { induction H as [|l ls Hl H IH]; [exists []; repeat split; constructor|]. destruct IH as (ps & E1 & E2 & E3). destruct (render_ok l Hl) as (s & R1 & R2 & R3).
    exists ((s, seen_line show_f show_n l) :: ps). cbn [map fst snd]. rewrite R1, E1, E2. repeat split. constructor; [split; assumption|exact E3]. }
  destruct X as (ps & -> & -> & X). apply lines_of_text. exact X.
Qed.
End Sink.
