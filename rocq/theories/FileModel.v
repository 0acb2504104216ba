(** * The file source: src/source/file/file_watcher.rs and src/source/file/file_server.rs *)
From Verif Require Import Base.
Open Scope list_scope. Open Scope nat_scope.

Definition bytes := list N.

(** What other processes do to the file system (not in /repo).  A file is known by its (device, inode) pair, here a
    number: the pair of a file that is held open is not given to another one. *)
Inductive action :=
| Append (i : nat) (bs : bytes)       (** write at the end of file i *)
| Rewrite (i : nat) (bs : bytes)      (** truncate file i and write bs *)
| Link (p : string) (i : nat)         (** the path now names file i: create, rename *)
| Unlink (p : string).                (** the path names nothing: remove, rename away *)

(** the file system, and the actions of others that are still to come: one list before each system call *)
Record world := mkWorld {
  names : list (string * nat);
  files : nat -> bytes;
  sched : list (list action);
}.
Definition set_file (i : nat) (bs : bytes) (f : nat -> bytes) : nat -> bytes := fun j => if Nat.eqb j i then bs else f j.
Definition act (w : world) (a : action) : world :=
  match a with
  | Append i bs => mkWorld (names w) (set_file i (files w i ++ bs) (files w)) (sched w)
  | Rewrite i bs => mkWorld (names w) (set_file i bs (files w)) (sched w)
  | Link p i => mkWorld (ainsert seqb p i (names w)) (files w) (sched w)
  | Unlink p => mkWorld (aremove seqb p (names w)) (files w) (sched w)
  end.
(** the others act, then a system call happens *)
Definition tick (w : world) : world :=
  match sched w with
  | [] => w
  | acts :: r => fold_left act acts (mkWorld (names w) (files w) r)
  end.
Definition named (w : world) (p : string) : option nat := alookup seqb p (names w).

(** io::BufReader<fs::File> (standard library): the open file, the offset of the next read(2), the bytes read and not
    yet taken *)
Record reader := mkReader { r_ino : nat; r_off : nat; r_buf : bytes }.

(** struct FileWatcher, file_watcher.rs:17-23 *)
Record watcher := mkWatcher {
  f_path : string;
  f_reader : option reader;
  f_id : option nat;
  f_prev : nat;
  f_reopen : bool;
}.

(** dead, file_watcher.rs:109-111 *)
Definition dead (f : watcher) : bool :=
  match f_reader f, f_id f with None, None => true | _, _ => false end.

(** FileWatcher::new, file_watcher.rs:45-77: open(2), then a seek to the end.  Simplification: opening fails only when
    the path names nothing. *)
Definition watch (p : string) (w : world) : watcher * world :=
  let w := tick w in
  match named w p with
  | Some i => let w := tick w in
              (mkWatcher p (Some (mkReader i (List.length (files w i)) [])) (Some i) 0 false, w)
  | None => (mkWatcher p None None 0 false, w)
  end.

(** open_at_start, file_watcher.rs:79-107: open(2), then the size by fstat(2).  The inner branch at 87-92 is dead code:
    file_id was just set. *)
Definition open_at_start (f : watcher) (w : world) : watcher * world :=
  let w := tick w in
  match named w (f_path f) with
  | Some i => let w := tick w in
              (mkWatcher (f_path f) (Some (mkReader i 0 [])) (Some i) (List.length (files w i)) false, w)
  | None => (mkWatcher (f_path f) None None (f_prev f) false, w)
  end.

(** memchr: the bytes up to and including the first newline, and the rest *)
Fixpoint split_line (bs : bytes) : option (bytes * bytes) :=
  match bs with
  | [] => None
  | b :: r => if N.eqb b 10 then Some ([b], r)
              else match split_line r with Some (l, s) => Some (b :: l, s) | None => None end
  end.

Section Watcher.
(** capacity of a BufReader: 8192 in the standard library *)
Variable cap : nat.
(** str::from_utf8 succeeds (not in /repo) *)
Variable utf8_ok : bytes -> bool.

(** fill_buf (standard library): when nothing is buffered, one read(2) of at most [cap] bytes *)
Definition fill_buf (r : reader) (w : world) : reader * world :=
  match r_buf r with
  | [] => let w := tick w in
          let bs := firstn cap (skipn (r_off r) (files w (r_ino r))) in
          (mkReader (r_ino r) (r_off r + List.length bs) bs, w)
  | _ => (r, w)
  end.
(** read_until(b'\n') (standard library), the loop of BufRead::read_line.  [fuel] bounds the number of read(2) calls; see
    [read_until_fuel].  Simplification: read(2) does not fail. *)
Fixpoint read_until (fuel : nat) (r : reader) (w : world) (acc : bytes) : bytes * reader * world :=
  match fuel with
  | 0 => (acc, r, w)
  | S fuel =>
      let (r, w) := fill_buf r w in
      match r_buf r with
      | [] => (acc, r, w)
      | _ =>
          match split_line (r_buf r) with
          | Some (l, rest) => (acc ++ l, mkReader (r_ino r) (r_off r) rest, w)
          | None => read_until fuel (mkReader (r_ino r) (r_off r) []) w (acc ++ r_buf r)
          end
      end
  end.
(** an upper bound on the bytes that can still be read from a file: those there and those others will write *)
Definition to_come (w : world) : nat :=
  list_sum (map (fun a => match a with Append _ bs | Rewrite _ bs => List.length bs | _ => 0 end) (List.concat (sched w))).
Definition read_until_fuel (r : reader) (w : world) : nat :=
  S (List.length (r_buf r) + List.length (skipn (r_off r) (files w (r_ino r))) + to_come w).

(** String::pop (standard library): drops the last character: trailing continuation bytes and the byte before them *)
Fixpoint drop_char (rev_bs : bytes) : bytes :=
  match rev_bs with
  | [] => []
  | b :: r => if andb (128 <=? b)%N (b <? 192)%N then drop_char r else r
  end.
Definition pop (bs : bytes) : bytes := rev (drop_char (rev bs)).

(** what read_line returns: the text in the buffer (its length is the number returned), or an error *)
Inductive outcome := Text (bs : bytes) | Failed.

(** read_line, file_watcher.rs:118-184, called with an empty buffer: fstat(2), back to the start if the file shrank,
    then a line; at the end of the file the path is compared with the open file.  Invalid UTF-8 is taken from the
    reader, dropped and reported as an error, BufRead::read_line.  Panics on truncation telemetry for paths that are not
    text are not modelled. *)
Definition read_line (f : watcher) (w : world) : outcome * watcher * world :=
  let (f, w) := if f_reopen f then open_at_start f w else (f, w) in
  match f_reader f with
  | Some r =>
      let w := tick w in
      let size := List.length (files w (r_ino r)) in
      let r := if size <? f_prev f then mkReader (r_ino r) 0 [] else r in
      let '(bs, r, w) := read_until (read_until_fuel r w) r w [] in
      match bs with
      | [] =>
          let w := tick w in
          let same := match named w (f_path f), f_id f with
                      | Some i, Some j => Nat.eqb i j
                      | None, None => true
                      | _, _ => false
                      end in
          (Text [], mkWatcher (f_path f) (Some r) (f_id f) size (if same then f_reopen f else true), w)
      | _ =>
          let f := mkWatcher (f_path f) (Some r) (f_id f) size (f_reopen f) in
          if utf8_ok bs then (Text (pop bs), f, w) else (Failed, f, w)
      end
  | None => let (f, w) := open_at_start f w in (Text [], f, w)
  end.

(** n calls of read_line in a row *)
Fixpoint reads (n : nat) (f : watcher) (w : world) : list outcome * watcher * world :=
  match n with
  | 0 => ([], f, w)
  | S n => let '(o, f, w) := read_line f w in
           let '(os, f, w) := reads n f w in (o :: os, f, w)
  end.

(** the inner loop of run, file_server.rs:104-119: the texts pushed and the bytes read.  [fuel] bounds the number of
    calls of read_line: max_read_bytes + 1 suffice, since every call but the last reads at least a byte. *)
Fixpoint drain (fuel max sofar : nat) (f : watcher) (w : world) : list bytes * nat * watcher * world :=
  match fuel with
  | 0 => ([], sofar, f, w)
  | S fuel =>
      let '(o, f, w) := read_line f w in
      match o with
      | Failed | Text [] => ([], sofar, f, w)
      | Text bs =>
          let sofar := sofar + List.length bs in
          if max <? sofar then ([bs], sofar, f, w)
          else let '(ls, n, f, w) := drain fuel max sofar f w in (bs :: ls, n, f, w)
      end
  end.
Definition poll_file (max : nat) (f : watcher) (w : world) : list bytes * nat * watcher * world := drain (S max) max 0 f w.

(** glob poll, file_server.rs:93-102: a new watcher is made for every path found, and kept if the path has none *)
Fixpoint glob_poll (found : list string) (m : list (string * watcher)) (w : world) : list (string * watcher) * world :=
  match found with
  | [] => (m, w)
  | p :: r => let (f, w) := watch p w in
              glob_poll r (if amem seqb p m then m else ainsert seqb p f m) w
  end.
(** line polling, file_server.rs:103-135: the lines, the bytes read, the watchers kept *)
Fixpoint line_poll (max : nat) (m : list (string * watcher)) (alt : list (string * watcher)) (w : world)
    : list (string * bytes) * nat * list (string * watcher) * world :=
  match m with
  | [] => ([], 0, alt, w)
  | (p, f) :: r =>
      let '(ls, n, f, w) := poll_file max f w in
      let '(ls', n', alt, w) := line_poll max r (if dead f then alt else ainsert seqb p f alt) w in
      (map (fun l => (p, l)) ls ++ ls', n + n', alt, w)
  end.
(** backoff_cap, file_server.rs:147-156.  Simplification: sums of bytes do not saturate. *)
Definition next_cap (backoff_cap : N) (global : nat) : N :=
  if Nat.eqb global 0 then (let lim := (backoff_cap * 2)%N in if (2048 <? lim)%N then 2048%N else lim) else 1%N.

(** state of run between two rounds *)
Record server := mkServer { s_map : list (string * watcher); s_cap : N }.
Definition server_init : server := mkServer [] 1%N.
(** one round of the loop of run, file_server.rs:90-160, up to the poll: the lines sent, in order, and the time to wait in
    milliseconds.  [found] is what glob yields, [order] the order in which the hash map is drained. *)
Definition round (max : nat) (found : list string) (order : list (string * watcher) -> list (string * watcher)) (s : server) (w : world)
    : list (string * bytes) * N * server * world :=
  let (m, w) := glob_poll found (s_map s) w in
  let '(ls, n, alt, w) := line_poll max (order m) [] w in
  let c := next_cap (s_cap s) n in
  (ls, (c - N.of_nat n)%N, mkServer alt c, w).
(** rounds in a row, file_server.rs:90-176, each ended by a poll without events; then Shutdown is sent, which is not shown *)
Fixpoint rounds (max : nat) (rs : list (list string * (list (string * watcher) -> list (string * watcher)))) (s : server) (w : world)
    : list (string * bytes) * server * world :=
  match rs with
  | [] => ([], s, w)
  | (found, order) :: r =>
      let '(ls, _, s, w) := round max found order s w in
      let '(ls', s, w) := rounds max r s w in (ls ++ ls', s, w)
  end.
End Watcher.
