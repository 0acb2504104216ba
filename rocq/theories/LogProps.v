(** * Property C162: the log. *)
From Coq Require Import String Ascii NArith Lia Decimal DecimalString DecimalN List.
From Verif Require Import ParseModel ParseSpec ParseProofs LogModel.
Import ListNotations.
Open Scope string_scope. Open Scope N_scope.

(** ** Specification *)
(** the levels that n flags show, besides errors, and those they leave out *)
Definition shown_by (n : N) (l : severity) : Prop :=
  match l with LError => True | LWarn => 1 <= n | LInfo => 2 <= n | LDebug => 3 <= n | LTrace => 4 <= n end.
(** records as the macros of the log crate make them *)
Definition placed (r : record) : Prop := (exists m, r_module r = Some m /\ free_of "]" m) /\ (exists l, r_line r = Some l).

Lemma levels v l : severity_no l <= severity_no (level_of v) <-> shown_by v l.
Proof. destruct v as [|[[[|[]|]|[|[]|]|]|[[]|[|[]|]|]|]], l; cbn -[N.le]; lia. Qed.
Lemma line_inj a b : show_line a = show_line b -> a = b.
Proof.
  unfold show_line. intros H. apply (f_equal NilZero.uint_of_string) in H. rewrite !NilZero.usu in H by (destruct a, b; cbn; try discriminate; apply DecimalPos.Unsigned.to_uint_nonnil). injection H as H. apply (f_equal N.of_uint) in H. rewrite !Unsigned.of_to in H. exact H.
Qed.
Lemma digits_free d : free_of "]" (NilEmpty.string_of_uint d).
Proof. induction d; cbn; [exact Logic.I|split; [discriminate|assumption]..]. Qed.
Lemma line_free n : free_of "]" (show_line n).
Proof. unfold show_line, NilZero.string_of_uint. destruct (N.to_uint n) eqn:E; [split; [discriminate|exact Logic.I]|rewrite <- E; apply digits_free..]. Qed.
Lemma level_free l : free_of "]" (severity_text l).
Proof. destruct l; cbn; repeat split; discriminate. Qed.
Lemma field_inj a b r s : free_of "]" a -> free_of "]" b -> a ++ "]" ++ r = b ++ "]" ++ s -> a = b /\ r = s.
Proof. intros Ha Hb E. apply (f_equal (find_char "]")) in E. cbn [append] in E. rewrite !find_char_app in E by assumption. injection E as -> ->. auto. Qed.

(** ** C162 *)
Theorem C162_levels : forall verbose now r, placed r ->
  (shown_by verbose (r_level r) -> exists s, log_record verbose now r = Shown s) /\ (~ shown_by verbose (r_level r) -> log_record verbose now r = Hidden).
Proof.
  intros v now r ((m & Em & _) & (l & El)). unfold log_record, format_record. rewrite Em, El. split; intros H.
  - apply levels, N.leb_le in H. rewrite H. eauto.
  - destruct (N.leb_spec (severity_no (r_level r)) (severity_no (level_of v))) as [X|X]; [apply levels in X; contradiction|reflexivity].
Qed.
(** one more -v hides nothing and changes no line; from four on all is shown *)
Theorem C162_more : forall n n' now r s, n <= n' -> log_record n now r = Shown s -> log_record n' now r = Shown s.
Proof.
  intros n n' now r s H E. unfold log_record in *. destruct (N.leb_spec (severity_no (r_level r)) (severity_no (level_of n))) as [X|X]; [|discriminate].
  apply levels in X. assert (Y : shown_by n' (r_level r)) by (destruct (r_level r); cbn [shown_by] in *; (exact Logic.I || lia)). apply levels, N.leb_le in Y. rewrite Y. exact E.
Qed.
Theorem C162_all : forall n now r, 4 <= n -> placed r -> log_record n now r <> Hidden.
Proof. intros n now r H P. destruct (C162_levels n now r P) as [X _]. destruct X as (s & ->); [destruct (r_level r); cbn [shown_by]; (exact Logic.I || lia)|discriminate]. Qed.
(** a line tells where, when and how severe: records with the same line are the same, whatever their messages hold *)
Theorem C162_read : forall n n' now now' r r' s, placed r -> placed r' -> free_of "]" now -> free_of "]" now' ->
  log_record n now r = Shown s -> log_record n' now' r' = Shown s -> r = r' /\ now = now'.
Proof.
  intros n n' now now' [m l v t] [m' l' v' t'] s ((m0 & Em & Fm) & (l0 & El)) ((m1 & Em' & Fm') & (l1 & El')) Fn Fn' E E'. cbn in Em, El, Em', El'. subst. unfold log_record, format_record in E, E'. cbn [r_module r_line r_level r_message] in *.
  destruct (severity_no v <=? severity_no (level_of n)); [|discriminate]. destruct (severity_no v' <=? severity_no (level_of n')); [|discriminate]. injection E as <-. injection E' as E.
  change ("][" ++ ?x) with ("]" ++ "[" ++ x) in E. change ("] " ++ ?x) with ("]" ++ " " ++ x) in E.
  apply field_inj in E as [<- E]; [|assumption..]. injection E as E. apply field_inj in E as [El E]; [|apply line_free..]. apply line_inj in El. subst l1. injection E as E. apply field_inj in E as [<- E]; [|assumption..]. injection E as E. apply field_inj in E as [Ev E]; [|apply level_free..]. injection E as E. subst t'.
  split; [|reflexivity]. f_equal. destruct v, v'; (reflexivity || discriminate Ev).
Qed.
(** a warning of line 42, unseen without -v *)
Definition xwarn : record := {| r_module := Some "cernan::sink::wavefront"; r_line := Some 42; r_level := LWarn; r_message := "no ] route" |}.
Example C162_ex : placed xwarn /\ free_of "]" "2018-02-01T00:00:00+00:00" /\ log_record 0 "2018-02-01T00:00:00+00:00" xwarn = Hidden /\
  log_record 1 "2018-02-01T00:00:00+00:00" xwarn = Shown "[cernan::sink::wavefront][42][2018-02-01T00:00:00+00:00][WARN] no ] route".
Proof. split; [split; [exists "cernan::sink::wavefront"; split; [reflexivity|cbn; repeat split; discriminate]|exists 42; reflexivity]|]. split; [cbn; repeat split; discriminate|]. split; reflexivity. Qed.

Print Assumptions C162_levels.
Print Assumptions C162_more.
Print Assumptions C162_all.
Print Assumptions C162_read.
