(** * C131: failing reads *)
From Verif Require Import Base FileModel FaultModel FaultSpec FaultProofs.
From Coq Require Import Lia.
Open Scope string_scope. Open Scope list_scope. Open Scope nat_scope.

(** C131.  Reads that fail at the start of a line cost nothing: the lines sent are those sent if each such read had found
    the end of the file, and the thread goes on.  What comes between the rounds is any change of the files, as long as the
    files it adds fail at line starts only and it does not depend on the errors. *)
Theorem C131_gently : forall (utf8_ok : bytes -> bool) (max : nat)
    (before before' : list (list (string * handle) -> list (string * handle))) (m : list (string * handle)),
  Forall2 (fun f f' => comes_or_stays gently f /\ forall m, heal (f m) = f' (heal m)) before before' ->
  (forall p h, In (p, h) m -> gently h) ->
  serve utf8_ok max before m [] = serve utf8_ok max before' (heal m) [] /\
  snd (serve utf8_ok max before m []) = true.
Proof. intros. now apply serve_gently. Qed.

(** C131, the rest of it: a read that fails within a line.  From then on the source sends no line of any file: of that
    round at most the lines of the files polled before, in all later rounds nothing, whatever the files hold. *)
Theorem C131_within_silences : forall (utf8_ok : bytes -> bool) (max : nat) f before m m1 m2 p bs rs,
  f m = m1 ++ (p, mkHandle [] (Got bs :: Broke :: rs)) :: m2 ->
  bs <> [] -> ~ In 10%N bs -> utf8_ok bs = true ->
  let sent := fst (serve utf8_ok max (f :: before) m []) in
  sent = [] \/ exists m1' t, polls utf8_ok max m1 [] = Some (sent, m1', t).
Proof.
  intros u max f before m m1 m2 p bs rs E N L U. cbn zeta. cbn [serve]. rewrite E, polls_app.
  destruct (polls u max m1 []) as [[[ls m1'] t]|]; [|left; reflexivity].
  cbn [polls]. rewrite (poll_breaks u max bs rs t N L U).
  assert (T : t ++ bs <> []) by (intros X; apply app_eq_nil in X as [_ X]; congruence).
  pose proof (polls_left u max m2 _ T) as P. destruct (polls u max m2 (t ++ bs)) as [[[ls2 m2'] t2]|]; [|left; reflexivity].
  destruct P as [-> T2]. cbn [map app].
  pose proof (serve_left u max before (m1' ++ (p, mkHandle [] rs) :: m2') t2 T2) as S.
  destruct (serve u max before _ t2) as [l a]. cbn in *. subst. rewrite !app_nil_r. right. eauto.
Qed.
(** And as soon as a file has text to be read, in that round or a later one, the thread panics. *)
Theorem C131_within_panics : forall (utf8_ok : bytes -> bool) (max : nat) m0 m1 m2 p bs rs q h,
  bs <> [] -> ~ In 10%N bs -> utf8_ok bs = true ->
  (let '(l, ok, _) := until_newline h in ok = true /\ l <> [] /\ utf8_ok l = true) ->
  polls utf8_ok max (m0 ++ (p, mkHandle [] (Got bs :: Broke :: rs)) :: m1 ++ (q, h) :: m2) [] = None.
Proof.
  intros u max m0 m1 m2 p bs rs q h N L U Hh. rewrite polls_app.
  destruct (polls u max m0 []) as [[[ls m0'] t]|]; [|reflexivity]. cbn [polls]. rewrite (poll_breaks u max bs rs t N L U).
  assert (T : t ++ bs <> []) by (intros X; apply app_eq_nil in X as [_ X]; congruence).
  now rewrite (polls_line u max m1 m2 q h _ T Hh).
Qed.

(** The lines of a sound file are sent, each once and in order, however read(2) cuts its bytes. (A round takes at most [max]
    bytes of a file, and an empty line ends what it takes.) *)
Theorem C131_however_cut : forall (utf8_ok : bytes -> bool) (max : nat) p h ls,
  utf8_ok [] = true -> Forall (fun l => l <> [] /\ ~ In 10%N l /\ utf8_ok (l ++ [10%N]) = true) ls ->
  holds h (List.concat (map (fun l => l ++ [10%N]) ls)) -> List.length (List.concat ls) <= max ->
  serve utf8_ok max [fun m => m] [(p, h)] [] = (map (fun l => (p, l)) ls, true).
Proof.
  intros u max p h ls U0 F H M. assert (L : List.length ls <= List.length (List.concat ls)).
  { clear - F. induction F as [|l ls (N & _) F IH]; cbn; [lia|]. rewrite app_length. destruct l; [congruence|cbn; lia]. }
  destruct (poll_lines u max ls h 0 (Datatypes.S max) U0 F H ltac:(lia) ltac:(lia)) as (h' & E).
  cbn [serve polls]. rewrite E. cbn. now rewrite !app_nil_r.
Qed.
Example C131_however_cut_ex : holds (mkHandle [97]%N [Got [98]; Got [10; 99]; Got [10]]%N) (List.concat (map (fun l => l ++ [10%N]) [[97; 98]; [99]]%N)) /\
  serve (fun _ => true) 100 [fun m => m] [("f", mkHandle [97]%N [Got [98]; Got [10; 99]; Got [10]]%N)] [] = ([("f", [97; 98]%N); ("f", [99]%N)], true).
Proof. split; [|reflexivity]. exists [[98]; [10; 99]; [10]]%N. split; [reflexivity|]. split; [repeat constructor; discriminate|reflexivity]. Qed.
Print Assumptions C131_however_cut.

Definition xok : bytes -> bool := fun _ => true.
(** "ab" then an error; the line "cd" in another file *)
Definition xbroken : handle := mkHandle [] [Got [97; 98]; Broke; Got [99; 10]]%N.
Definition xsound : handle := mkHandle [] [Got [99; 100; 10]]%N.
(** The full claim, a failing read disturbs no other file, is refuted: the second file is sound and alone its line is
    sent; beside the first one it is not, and the thread is gone. *)
Theorem C131_refuted : exists utf8_ok max f m p h,
  In (p, h) m /\ (forall g, In g (h_reads h) -> g <> Broke) /\
  fst (serve utf8_ok max [f] [(p, h)] []) = [(p, [99; 100])]%N /\
  serve utf8_ok max [f] m [] = ([], false).
Proof.
  exists xok, 100, (fun m => m), [("a", xbroken); ("b", xsound)], "b", xsound.
  split; [cbn; auto|]. split; [|split; reflexivity].
  intros g [<-|[]]. discriminate.
Qed.

(** a directory matched by the pattern, whose every read fails, beside two files whose reads fail between lines *)
Definition xdir : handle := mkHandle [] [Broke; Broke; Broke].
Definition xlate : handle := mkHandle [] [Got [97; 10]; Broke; Got [98]; Got [10; 99; 10]; Broke]%N.
Definition xm : list (string * handle) := [("d", xdir); ("l", xlate); ("b", xsound)].
Example C131_gently_ex : (forall p h, In (p, h) xm -> gently h) /\
  serve xok 100 [(fun m => m); (fun m => rev m); (fun m => m)] xm [] = ([("l", [97]); ("b", [99; 100]); ("l", [98]); ("l", [99])]%N, true).
Proof.
  assert (L : forall bs, ~ within_line (bs ++ [10%N])).
  { intros bs (x & b & E & B). apply app_inj_tail in E as [_ E]. congruence. }
  assert (N : ~ within_line []). { intros (x & b & E & _). destruct x; discriminate. }
  split; [|reflexivity]. intros p h [E|[E|[E|[]]]]; injection E as <- <-; unfold gently; cbn.
  - repeat constructor; auto.
  - apply starts_got. apply starts_broke; [apply (L [97%N])|]. apply starts_got, starts_got, starts_broke; [|constructor].
    apply (L [10; 99]%N).
  - repeat constructor.
Qed.
Example C131_within_ex :
  [97; 98]%N <> [] /\ ~ In 10%N [97; 98]%N /\ xok [97; 98]%N = true /\ until_newline xsound = ([99; 100; 10]%N, true, mkHandle [] []) /\
  polls xok 100 [("a", xbroken); ("b", xsound)] [] = None /\
  (* the sound file was polled before: its line is sent, and it is the last *)
  serve xok 100 [(fun m => m); (fun m => m)] [("b", xsound); ("a", xbroken)] [] = ([("b", [99; 100]%N)], false).
Proof.
  split; [discriminate|]. split; [intros [E|[E|[]]]; discriminate|]. repeat split; reflexivity.
Qed.

Print Assumptions C131_gently.
Print Assumptions C131_within_silences.
Print Assumptions C131_within_panics.
Print Assumptions C131_refuted.
