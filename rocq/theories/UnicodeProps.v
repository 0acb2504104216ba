(** * C147: what counts as text *)
From Verif Require Import Base TelemetryModel ParseModel ParseSpec ParseProofs GraphiteModel GraphiteSpec GraphiteProofs Utf8 UnicodeSpec UnicodeProofs QExample TelemetryProps ParseProps GraphiteProps.
From Coq Require Import Lia.
Open Scope string_scope. Open Scope list_scope. Open Scope nat_scope.

(** the bytes the sources take as text are the encodings of lists of Unicode scalar values, and no others *)
Theorem C147_texts : forall bs, utf8 bs = true <-> exists cs, Forall scalar cs /\ bs = encoded cs.
Proof. intros bs. split; [apply utf8_encoded|intros (cs & F & ->); now apply encoded_utf8]. Qed.
(** and of one list only *)
Theorem C147_one_reading : forall cs cs', Forall scalar cs -> Forall scalar cs' -> encoded cs = encoded cs' -> cs = cs'.
Proof. exact encoded_inj. Qed.
(** a graphite connection on which every line arrives whole handles, in order, those that are text; the others leave no
    trace, not even on the counter of bad lines *)
Theorem C147_graphite : forall (Q : QLib) (pf : string -> option f64) (pi : string -> option Z) (words : list N -> list string) (base : telemetry)
  (ls : list (list N)) (is_text : list N -> bool),
  (forall l, is_text l = true <-> exists cs, Forall scalar cs /\ l = encoded cs) -> Forall gline ls ->
  handled (gparse pf pi words base) (filter is_text ls) [] (graphite_run pf pi words base (map GData ls)).
Proof.
  intros Q pf pi words base ls f Hf F.
  assert (Hu : forall l, f l = utf8 l).
  { intros l. destruct (utf8 l) eqn:E; [now apply Hf, C147_texts|]. destruct (f l) eqn:E'; [|reflexivity]. apply Hf, C147_texts in E'. congruence. }
  set (round := fun l => if utf8 l then ([l], None) else (@nil (list N), Some l)).
  assert (E1 : filter f ls = List.concat (map fst (map round ls))).
  { clear F Hf. induction ls as [|l ls IH]; [reflexivity|]. cbn [filter map List.concat]. rewrite Hu, IH. change (round l) with (if utf8 l then ([l], None) else (@nil (list N), Some l)). destruct (utf8 l); reflexivity. }
  assert (E2 : map GData ls = map (fun r => GData (List.concat (fst r) ++ match snd r with Some bad => bad | None => [] end)) (map round ls)).
  { rewrite map_map. apply map_ext. intros l. unfold round. destruct (utf8 l); cbn; now rewrite ?app_nil_r. }
  rewrite E1, E2. apply C89_isolated_partial. apply Forall_forall. intros r I. apply in_map_iff in I as (l & <- & I).
  rewrite Forall_forall in F. specialize (F l I). unfold round. destruct (utf8 l) eqn:E; cbn; repeat split; auto.
Qed.

(** "hé" and U+1F600, an overlong "/", a surrogate, a code point above U+10FFFF *)
Example C147_ex : Forall scalar [104; 233; 128512]%N /\ encoded [104; 233; 128512]%N = [104; 195; 169; 240; 159; 152; 128]%N /\
  map utf8 [[192; 175]; [224; 128; 175]; [237; 160; 128]; [237; 159; 191]; [244; 144; 128; 128]; [244; 143; 191; 191]]%N = [false; false; false; true; false; true].
Proof. split; [repeat constructor; unfold scalar; lia|]. split; reflexivity. Qed.
Example C147_graphite_ex : Forall gline [xhe; [104; 192; 175; 10]%N; xb] /\
  g_sent (xrun (map GData [xhe; [104; 192; 175; 10]%N; xb])) = [xpoint (String "h" (String (ascii_of_N 195) (String (ascii_of_N 169) ""))); xpoint "b"].
Proof.
  split; [|reflexivity]. repeat constructor; [exists (firstn 8 xhe)|exists [104; 192; 175]%N|exists (firstn 6 xb)]; split; try reflexivity; cbn; intuition lia.
Qed.
Print Assumptions C147_texts. Print Assumptions C147_one_reading. Print Assumptions C147_graphite.
