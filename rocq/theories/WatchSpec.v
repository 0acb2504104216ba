(** * The project's own reference for a watched file, and the experiments it runs against the file watcher: the test module of
    src/source/file/mod.rs, transcribed. *)
From Verif Require Import Base FileModel FileSpec.
Open Scope string_scope. Open Scope list_scope. Open Scope nat_scope.

(** enum FWAction, mod.rs:30-38 *)
Inductive fw_action := WriteLine (s : bytes) | RotateFile | DeleteFile | TruncateFile | ReadLine | Pause | Exit.
(** struct FWFile and its methods, mod.rs:46-82 *)
Record fw_file := mkFW { fw_contents : bytes; fw_idx : nat; fw_prev : nat; fw_avail : nat }.
Definition fw_new : fw_file := mkFW [] 0 0 0.
Definition fw_truncate (m : fw_file) : fw_file := mkFW [] (fw_idx m) (fw_prev m) 0.
Definition fw_write (s : bytes) (m : fw_file) : fw_file := mkFW (fw_contents m ++ s ++ [10%N]) (fw_idx m) (fw_prev m) (fw_avail m + 1).

Section Experiments.
Variable cap : nat.
Variable utf8_ok : bytes -> bool.

(** FWFile::read_line, mod.rs:85-148. [None]: a panic (an index out of bounds, a subtraction below zero, an unwrap). *)
Definition fw_read (m : fw_file) : option (option bytes * fw_file) :=
  let max := List.length (fw_contents m) in
  if (max =? 0) && (fw_avail m =? 0) then Some (None, mkFW (fw_contents m) 0 0 (fw_avail m))
  else
    let start := if max <? fw_prev m then 0 else fw_idx m in
    if negb (max <? fw_prev m) && (fw_idx m =? max) then Some (None, m)
    else match skipn start (fw_contents m) with
         | [] => None
         | rest => match split_line rest with
                   | None => Some (None, mkFW (fw_contents m) start (fw_prev m) (fw_avail m))
                   | Some (l, _) =>
                       let ret := removelast l in
                       if utf8_ok ret then
                         match fw_avail m with
                         | 0 => None
                         | S n => Some (match ret with [] => None | _ => Some ret end, mkFW (fw_contents m) (start + List.length l) max n)
                         end
                       else None
                   end
         end.

(** The test's variables: the file system (nobody else uses it, so nothing is to come), the watcher, the file [fp] is open on,
    the next unused inode; the reference files, newest first, and the index of the one being read; the three counts. *)
Record bench := mkBench {
  be_w : world; be_f : watcher; be_cur : nat; be_next : nat;
  be_files : list fw_file; be_index : nat;
  be_writes : nat; be_sut : nat; be_model : nat;
}.
Fixpoint upd {A} (n : nat) (x : A) (l : list A) : list A :=
  match n, l with
  | 0, _ :: r => x :: r
  | S n, y :: r => y :: upd n x r
  | _, [] => []
  end.
Definition log_path : string := "a_file.log".
(** the start of both experiments, mod.rs:196-208, 290-298: an empty file at the path, then the watcher *)
Definition bench_init : bench :=
  let '(f, w) := watch log_path (mkWorld [(log_path, 0)] (fun _ => []) []) in
  mkBench w f 0 1 [fw_new] 0 0 0 0.
(** reading a line of reference file [i] *)
Definition model_read (i : nat) (ms : list fw_file) : option (option bytes * list fw_file) :=
  match nth_error ms i with
  | Some m => match fw_read m with Some (a, m') => Some (a, upd i m' ms) | None => None end
  | None => None
  end.
Definition acted (a : list action) (b : bench) : world := fold_left act a (be_w b).
Definition write_line (s : bytes) (b : bench) : bench :=
  mkBench (acted [Append (be_cur b) (s ++ [10%N])] b) (be_f b) (be_cur b) (be_next b)
    (match be_files b with m :: r => fw_write s m :: r | [] => [] end) (be_index b) (be_writes b + 1) (be_sut b) (be_model b).
(** rename, then create: mod.rs:239-251, 321-333 *)
Definition rotate (b : bench) : bench :=
  mkBench (acted [Unlink log_path; Link "a_file.log.1" (be_cur b); Link log_path (be_next b)] b) (be_f b) (be_next b) (be_next b + 1)
    (fw_new :: be_files b) (be_index b + 1) (be_writes b) (be_sut b) (be_model b).
Definition truncate (b : bench) : bench :=
  mkBench (acted [Rewrite (be_cur b) []] b) (be_f b) (be_cur b) (be_next b)
    (match be_files b with m :: r => fw_truncate m :: r | [] => [] end) (be_index b) (be_writes b) (be_sut b) (be_model b).

(** ** Without truncations, mod.rs:286-377. [None]: an assertion of the test fails, or something panics. *)
Fixpoint read_exact (attempts : nat) (b : bench) : option bench :=
  match attempts with
  | 0 => Some b
  | S attempts =>
      let '(o, f, w) := read_line cap utf8_ok (be_f b) (be_w b) in
      let next ms i := mkBench w f (be_cur b) (be_next b) ms i (be_writes b) (be_sut b) (be_model b) in
      match o with
      | Failed => None
      | Text [] =>
          match model_read (be_index b) (be_files b) with
          | Some (None, ms) => read_exact attempts (next ms 0)
          | _ => None
          end
      | Text buf =>
          match model_read (be_index b) (be_files b) with
          | Some (Some e, ms) => if list_eq_dec N.eq_dec e buf then Some (next ms (be_index b)) else None
          | Some (None, ms) =>
              if be_index b =? 0 then None
              else match model_read 0 ms with
                   | Some (Some e, ms) => if list_eq_dec N.eq_dec e buf then Some (next ms 0) else None
                   | _ => None
                   end
          | None => None
          end
      end
  end.
Fixpoint experiment_no_truncations (acts : list fw_action) (b : bench) : option bench :=
  match acts with
  | [] => Some b
  | a :: r =>
      match a with
      | DeleteFile | Exit => Some b
      | TruncateFile | Pause => experiment_no_truncations r b
      | WriteLine s => experiment_no_truncations r (write_line s b)
      | RotateFile => experiment_no_truncations r (rotate b)
      | ReadLine => match read_exact 10 b with Some b => experiment_no_truncations r b | None => None end
      end
  end.

(** ** With truncations, mod.rs:195-278 *)
Fixpoint read_counted (attempts : nat) (b : bench) : option bench :=
  match attempts with
  | 0 => Some b
  | S attempts =>
      let '(o, f, w) := read_line cap utf8_ok (be_f b) (be_w b) in
      let next ms i k := mkBench w f (be_cur b) (be_next b) ms i (be_writes b) (be_sut b + 1) (be_model b + k) in
      match o with
      | Failed => None
      | Text [] => read_counted attempts (mkBench w f (be_cur b) (be_next b) (be_files b) 0 (be_writes b) (be_sut b) (be_model b))
      | Text _ =>
          match model_read (be_index b) (be_files b) with
          | Some (Some _, ms) => Some (next ms (be_index b) 1)
          | Some (None, ms) =>
              if be_index b =? 0 then Some (next ms 0 0)
              else match model_read 0 ms with
                   | Some (Some _, ms) => Some (next ms 0 1)
                   | Some (None, ms) => Some (next ms 0 0)
                   | None => None
                   end
          | None => None
          end
      end
  end.
Fixpoint experiment (acts : list fw_action) (b : bench) : option bench :=
  match acts with
  | [] => Some b
  | a :: r =>
      match a with
      | DeleteFile | Exit => Some b
      | TruncateFile => experiment r (truncate b)
      | Pause => experiment r b
      | WriteLine s => experiment r (write_line s b)
      | RotateFile => experiment r (rotate b)
      | ReadLine => match read_counted 10 b with Some b => experiment r b | None => None end
      end
  end.
End Experiments.

(** the lines the test writes: ASCII, not empty, without newline *)
Definition ascii_line (s : bytes) : Prop := Forall (fun c => c < 128 /\ c <> 10)%N s.
Definition plain_line (s : bytes) : Prop := s <> [] /\ ascii_line s.
Definition plain_lines (acts : list fw_action) : Prop := forall s, In (WriteLine s) acts -> plain_line s.
(** ASCII is text *)
Definition ascii_ok (utf8_ok : bytes -> bool) : Prop := forall bs, Forall (fun c => c < 128)%N bs -> utf8_ok bs = true.
